(** Model of readFileLine and doCFPFS (Linux), src/Clock.cpp:54-107. The directory and the
    files are arguments: the names readdir returns in turn, and the bytes of a file that
    fopen can open. Text of errors is not modelled. *)
From Coq Require Import String List ZArith Bool.
From Verif Require Import Common Base64_Spec.
Import ListNotations.
Local Open Scope Z_scope.

(** string::operator== *)
Fixpoint eqs (a b : list Z) : bool :=
  match a, b with
  | [], [] => true
  | x :: a, y :: b => (x =? y) && eqs a b
  | _, _ => false
  end.
(** fgets: at most [n] characters, up to and with the first line feed *)
Fixpoint fgets (n : nat) (bytes : list Z) : list Z :=
  match n, bytes with
  | S n, c :: r => c :: (if c =? 10 then [] else fgets n r)
  | _, _ => []
  end.
(** strlen of a buffer with a zero after [buf] *)
Fixpoint strlen (buf : list Z) : nat :=
  match buf with
  | [] => 0%nat
  | c :: r => if c =? 0 then 0%nat else S (strlen r)
  end.
(** Clock.cpp:54-73 *)
Definition readFileLine (f : option (list Z)) : res (list Z) :=
  match f with
  | None => Ok []                                         (* line 61 *)
  | Some bytes =>
    let buf := fgets 79 bytes in                          (* line 66, bufsize - 1 *)
    let! _ := invariant (negb (Nat.eqb (length buf) 0)) in   (* line 67: NULL at the end of file *)
    let len := strlen buf in
    let! _ := invariant (Nat.ltb 0 len && (nth (len - 1) buf 0 =? 10)) in
    Ok (firstn (len - 1) buf)                             (* lines 70-72 *)
  end.
(** strncmp(d_name, "cpu", 3) == 0 && isdigit(d_name[3]), lines 88-89 *)
Definition is_cpu (name : list Z) : bool :=
  eqs (firstn 3 name) (codes "cpu") && (48 <=? nth 3 name 0) && (nth 3 name 0 <=? 57).

Section FS.
Variable fs : list Z -> option (list Z).
(** The loop of lines 87-102, with cpu_count: None when it goes on to the end, otherwise
    what is returned. *)
Fixpoint scan (names : list (list Z)) (cpu_count : nat) : res (nat + bool) :=
  match names with
  | [] => Ok (inl cpu_count)
  | name :: rest =>
    if is_cpu name then
      let dir := codes "/sys/devices/system/cpu" ++ codes "/" ++ name ++ codes "/cpufreq" in
      let! min_freq := readFileLine (fs (dir ++ codes "/scaling_min_freq")) in
      let! max_freq := readFileLine (fs (dir ++ codes "/scaling_max_freq")) in
      let! governor := readFileLine (fs (dir ++ codes "/scaling_governor")) in
      if eqs governor (codes "performance") || (negb (eqs min_freq []) && eqs min_freq max_freq)
      then scan rest (S cpu_count)
      else Ok (inr true)
    else scan rest cpu_count
  end.
(** Lines 76-107: the answer, and the number of directories left open. closedir succeeds. *)
Definition doCFPFS (dir : option (list (list Z))) : res (bool * nat) :=
  match dir with
  | None => Ok (true, 0%nat)                              (* line 79 *)
  | Some names =>
    let! r := scan names 0 in
    match r with
    | inr b => Ok (b, 1%nat)                              (* line 99: no closedir *)
    | inl cpu_count =>
      let! _ := invariant (Nat.ltb 0 cpu_count) in        (* line 104 *)
      Ok (false, 0%nat)
    end
  end.
End FS.
