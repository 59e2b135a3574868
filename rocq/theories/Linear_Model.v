(** Model of LeastSquares (include/Lintel/LeastSquares.hpp, src/LeastSquares.cpp)
    and Matrix (include/Lintel/Matrix.hpp, src/Matrix.cpp) over an abstract
    arithmetic. Text output is not modelled, nor are copies of a Matrix (they
    share the array and free it twice). *)
From Coq Require Import List Arith ZArith.
From Verif Require Import Common Arith Double_Model.
Import ListNotations.

Section M.
Variable A : arith.

(** ** LeastSquares *)
(** WeightedPoint, LeastSquares.hpp:34-38 *)
Record point : Type := mkPoint { px : A; py : A; pw : A }.

(** add, LeastSquares.hpp:50-53 *)
Definition ls_add (data : list point) (x y weight : A) : res (list point) :=
  let! _ := invariant (nlt (of_int 0) weight) in
  Ok (data ++ [mkPoint x y weight]).

Record sums : Type := mkSums { s_w : A; s_wx : A; s_wy : A; s_wxx : A; s_wxy : A }.
(** The loop of fitLinearVertical, LeastSquares.cpp:24-30 *)
Fixpoint ls_loop (data : list point) (s : sums) : sums :=
  match data with
  | [] => s
  | p :: r => ls_loop r (mkSums (nadd (s_w s) (pw p))
                                (nadd (s_wx s) (nmul (pw p) (px p)))
                                (nadd (s_wy s) (nmul (pw p) (py p)))
                                (nadd (s_wxx s) (nmul (nmul (pw p) (px p)) (px p)))
                                (nadd (s_wxy s) (nmul (nmul (pw p) (px p)) (py p))))
  end.
(** fitLinearVertical, LeastSquares.cpp:19-39: (intercept, slope) *)
Definition fit (data : list point) : res (A * A) :=
  let z := of_int 0 in
  let! _ := invariant (1 <? length data) in
  let s := ls_loop data (mkSums z z z z z) in
  let denom := nsub (nmul (s_w s) (s_wxx s)) (nmul (s_wx s) (s_wx s)) in
  let! _ := invariant (negb (neq denom (of_int 0))) in
  let slope := ndiv (nsub (nmul (s_w s) (s_wxy s)) (nmul (s_wx s) (s_wy s))) denom in
  let intercept := ndiv (nsub (s_wy s) (nmul slope (s_wx s))) (s_w s) in
  Ok (intercept, slope).

(** Linear::get, LeastSquares.hpp:30 *)
Definition line_get (l : A * A) (x : A) : A := nadd (nmul x (snd l)) (fst l).

(** ** Matrix *)
(** Matrix.hpp:67-68: data holds the rows one after the other *)
Record matrix : Type := mkMatrix { nrows : nat; ncols : nat; data : list A }.

(** Constructor and resize, Matrix.cpp:17-34; rows * cols is an unsigned int *)
Definition m_new (rows cols : nat) : matrix :=
  mkMatrix rows cols (repeat (of_int 0) (Z.to_nat ((Z.of_nat rows * Z.of_nat cols) mod 2 ^ 32))).

(** The index computation of get and set, Matrix.hpp:29-47; DEBUG_SINVARIANT is
    compiled out. *)
Definition idx (m : matrix) (row col : nat) : nat :=
  Z.to_nat ((Z.of_nat row * Z.of_nat (ncols m) + Z.of_nat col) mod 2 ^ 32).
Definition m_get (m : matrix) (row col : nat) : res A := get (data m) (idx m row col).
Definition m_set (m : matrix) (row col : nat) (v : A) : res matrix :=
  let! d := put (data m) (idx m row col) v in Ok (mkMatrix (nrows m) (ncols m) d).

(** for(i = 0; i < n; i++) *)
Fixpoint for_cols {S} (f : S -> nat -> res S) (is_ : list nat) (s : S) : res S :=
  match is_ with [] => Ok s | i :: r => let! s := f s i in for_cols f r s end.

(** swapRows, Matrix.cpp:57-65 *)
Definition swapRows (m : matrix) (row1 row2 : nat) : res matrix :=
  let! _ := invariant ((row1 <? nrows m) && (row2 <? nrows m)) in
  for_cols (fun m i =>
    let! tmp := m_get m row1 i in
    let! x := m_get m row2 i in
    let! m := m_set m row1 i x in
    m_set m row2 i tmp) (seq 0 (ncols m)) m.

(** divRow, Matrix.cpp:68-74 *)
Definition divRow (m : matrix) (row : nat) (val : A) : res matrix :=
  let! _ := invariant ((row <? nrows m) && nlt (of_int 0) (dabs A val)) in
  for_cols (fun m i => let! x := m_get m row i in m_set m row i (ndiv x val)) (seq 0 (ncols m)) m.

(** accumMultiply, Matrix.cpp:77-84 *)
Definition accumMultiply (m : matrix) (into_row from_row : nat) (value : A) : res matrix :=
  let! _ := invariant ((into_row <? nrows m) && (from_row <? nrows m)) in
  for_cols (fun m i =>
    let! x := m_get m into_row i in
    let! y := m_get m from_row i in
    m_set m into_row i (nadd x (nmul value y))) (seq 0 (ncols m)) m.

(** The search for the largest pivot, Matrix.cpp:96-101 *)
Definition find_max (m : matrix) (column start : nat) : res nat :=
  for_cols (fun maxrow i =>
    let! x := m_get m maxrow column in
    let! y := m_get m i column in
    Ok (if nlt (dabs A x) (dabs A y) then i else maxrow)) (seq (start + 1) (nrows m - (start + 1))) start.

(** One round of the main loop, Matrix.cpp:93-112; the state is the matrix and
    eliminated_cols; [eps] is Double::default_epsilon *)
Definition eliminate (eps : A) (st : matrix * nat) (column : nat) : res (matrix * nat) :=
  let (m, e) := st in
  if e =? nrows m then Ok (m, e)            (* break: the later rounds do nothing either *)
  else
    let! maxrow := find_max m column e in
    let! m := swapRows m maxrow e in
    let! x := m_get m e column in
    if d_eq A eps x (of_int 0) then Ok (m, e)
    else
      let! m := divRow m e x in
      let! m := for_cols (fun m i =>
        let! x := m_get m i column in
        accumMultiply m i e (nopp x)) (seq (e + 1) (nrows m - (e + 1))) m in
      Ok (m, e + 1).

(** Back substitution, Matrix.cpp:114-121, [column] from maxcolumn - 1 down to 1.
    For maxcolumn = 0 the unsigned column becomes 2^32 - 1 and get(0, column)
    reads outside the array. *)
Definition back (m : matrix) (maxcolumn : nat) : res matrix :=
  if maxcolumn =? 0 then UB
  else
    for_cols (fun m column =>
      for_cols (fun m i =>
        let! x := m_get m i column in
        accumMultiply m i column (nopp x)) (seq 0 column) m) (rev (seq 1 (maxcolumn - 1))) m.

(** gaussEliminate, Matrix.cpp:86-124 *)
Definition gaussEliminate (eps : A) (m : matrix) (maxcolumn : Z) : res (matrix * nat) :=
  let maxcolumn := if (maxcolumn =? -1)%Z then Z.of_nat (Nat.min (nrows m) (ncols m)) else maxcolumn in
  let! (m, e) := for_cols (eliminate eps) (seq 0 (Z.to_nat maxcolumn)) (m, 0) in
  if (Z.of_nat e =? maxcolumn)%Z then let! m := back m e in Ok (m, e) else Ok (m, e).
End M.
Arguments mkPoint {A}.
Arguments px {A}.
Arguments py {A}.
Arguments pw {A}.
Arguments mkMatrix {A}.
Arguments nrows {A}.
Arguments ncols {A}.
Arguments data {A}.
Arguments for_cols {S}.
