(** Model of src/ConstantString.cpp and include/Lintel/ConstantString.hpp, on top
    of the HashTable model. Memory is the pool's buffers, whose cells hold a byte
    or nothing yet, and init_buffer. A ConstantStringValue* is a buffer and an
    offset, or the address init_buffer + 4. The statistics nstrings and
    string_bytes are left out. *)
From Coq Require Import List Arith NArith ZArith Bool.
From Verif Require Import Common HashTable_Model.
Import ListNotations.
Local Open Scope Z_scope.

Notation cell := (option Z).
(** memcpy(d + off, bytes, length bytes) and reading n bytes at d + off. *)
Definition write_at (d : list cell) (off : nat) (bytes : list Z) : res (list cell) :=
  if (off + length bytes <=? length d)%nat
  then Ok (firstn off d ++ map Some bytes ++ skipn (off + length bytes) d) else UB.
Fixpoint cells_bytes (l : list cell) : res (list Z) :=
  match l with
  | [] => Ok []
  | None :: _ => UB
  | Some b :: r => let! bs := cells_bytes r in Ok (b :: bs)
  end.
Definition read_at (d : list cell) (off n : nat) : res (list Z) :=
  if (off + n <=? length d)%nat then cells_bytes (firstn n (skipn off d)) else UB.
(** A uint32_t in memory (little-endian). *)
Definition u32 (x : Z) : Z := x mod 2 ^ 32.
Definition word_bytes (v : Z) : list Z := [v mod 256; v / 256 mod 256; v / 65536 mod 256; v / 16777216 mod 256].
Definition bytes_word (l : list Z) : Z := match l with [a; b; c; d] => a + 256 * (b + 256 * (c + 256 * d)) | _ => 0 end.
(** Conversion of an unsigned number to int (two's complement). *)
Definition to_int (x : Z) : Z := let y := x mod 2 ^ 32 in if y <? 2 ^ 31 then y else y - 2 ^ 32.

Inductive ptr : Type := Tmp | At (buffer offset : nat).
(** ConstantString.hpp:121-125; `size` is always buffer_size. *)
Record buffer : Type := { bdata : list cell; amt_used : Z }.
Record pool : Type := { buffers : list buffer; table : ht ptr; empty_string_myptr : option ptr; init_buffer : list cell }.

Section cs.
Variable buffer_size : nat.    (* 512*1024, ConstantString.hpp:166 *)
Variable hashBytes : list Z -> N.  (* lintel::hashBytes *)

(** ConstantString.hpp:38-43: the length in front of the string, and its bytes. *)
Definition area (m : pool) (p : ptr) : res (list cell * nat) :=
  match p with
  | Tmp => Ok (init_buffer m, 4%nat)
  | At b off => let! buf := get (buffers m) b in Ok (bdata buf, off)
  end.
Definition cs_length (m : pool) (p : ptr) : res Z :=
  let! (d, off) := area m p in
  if (off <? 4)%nat then UB else let! w := read_at d (off - 4) 4 in Ok (bytes_word w).
(** ConstantString.hpp:89 str() *)
Definition cs_str (m : pool) (p : ptr) : res (list Z) :=
  let! n := cs_length m p in
  let! (d, off) := area m p in
  read_at d off (Z.to_nat n).
(** ConstantString.hpp:134-153 hteHash and hteEqual. The hash table model takes
    total functions: a pointer that cannot be read hashes to 0 here, and
    [table_readable] makes looking at such a pointer UB. *)
Definition hteHash (m : pool) (p : ptr) : N := match cs_str m p with Ok s => hashBytes s | _ => 0%N end.
Fixpoint bytes_eqb (a b : list Z) : bool :=
  match a, b with [], [] => true | x :: a', y :: b' => (x =? y) && bytes_eqb a' b' | _, _ => false end.
Definition hteEqual (m : pool) (p q : ptr) : bool :=
  match cs_str m p, cs_str m q with
  | Ok a, Ok b => if negb (Z.of_nat (length a) =? Z.of_nat (length b)) then false else bytes_eqb a b
  | _, _ => false
  end.
Definition readable (m : pool) (p : ptr) : bool := match cs_str m p with Ok _ => true | _ => false end.
Definition table_readable (m : pool) : bool := forallb (fun c => readable m (fst c)) (chains (table m)).

(** The state before the first string, ConstantString.cpp:27-34 and 41-44. *)
Definition cs_start : res pool :=
  let! t := ht_new 2 1 in
  Ok {| buffers := []; table := t; empty_string_myptr := None; init_buffer := [] |}.

(** ConstantString.cpp:57-64: the key, in init_buffer. *)
Definition set_key (ib : list cell) (s : list Z) (slen : Z) : res (list cell) :=
  let ib := if Z.of_nat (length ib) <? u32 (5 + slen) then repeat None (Z.to_nat (u32 (5 + slen))) else ib in
  let! ib := write_at ib 0 (word_bytes slen) in
  let! ib := write_at ib 4 (firstn (Z.to_nat slen) s) in
  write_at ib (Z.to_nat (u32 (4 + slen))) [0].
(** ConstantString.cpp:76; the sum with sizeof is 64-bit. *)
Definition space_used (slen : Z) : Z :=
  let slen1 := u32 (slen + 1) in
  to_int (u32 (slen1 + (4 - slen1 mod 4) mod 4) + 4).
(** ConstantString.cpp:79-80: the first buffer with room. *)
Fixpoint find_room (bs : list buffer) (need : Z) (i : nat) : option nat :=
  match bs with
  | [] => None
  | b :: r => if need <=? Z.of_nat buffer_size - amt_used b then Some i else find_room r need (S i)
  end.
(** ConstantString.cpp:81-99 *)
Definition place (m : pool) (i : nat) (s : list Z) (slen : Z) : res (pool * ptr) :=
  let! buf := get (buffers m) i in
  let off := Z.to_nat (amt_used buf) in
  let! d := write_at (bdata buf) off (word_bytes slen) in
  let! d := write_at d (off + 4) (firstn (Z.to_nat slen) s) in
  let! d := write_at d (off + 4 + Z.to_nat slen) [0] in
  let buf' := {| bdata := d; amt_used := amt_used buf + space_used slen |} in
  let p := At i (off + 4) in
  let m1 := {| buffers := upd (buffers m) i buf'; table := table m;
               empty_string_myptr := if slen =? 0 then Some p else empty_string_myptr m; init_buffer := init_buffer m |} in
  if negb (table_readable m1 && readable m1 p) then UB else
  let! (t, _) := ht_add (hteHash m1) (table m1) p in
  Ok ({| buffers := buffers m1; table := t; empty_string_myptr := empty_string_myptr m1; init_buffer := init_buffer m1 |}, p).
(** ConstantString.cpp:37-111 *)
Fixpoint init (fuel : nat) (m : pool) (s : list Z) (slen : Z) : res (pool * ptr) :=
  match fuel with
  | O => Fuel
  | S f =>
    match (if slen =? 0 then empty_string_myptr m else None) with
    | Some p => Ok (m, p)
    | None =>
      let! ib := set_key (init_buffer m) s slen in
      let m := {| buffers := buffers m; table := table m; empty_string_myptr := empty_string_myptr m; init_buffer := ib |} in
      if negb (table_readable m && readable m Tmp) then UB else
      let! r := ht_lookup (hteHash m) (hteEqual m) (table m) Tmp in
      match r with
      | Some i => let! p := deref (table m) i in Ok (m, p)
      | None =>
        match find_room (buffers m) (space_used slen) 0 with
        | Some i => place m i s slen
        | None =>
          let! _ := invariant (space_used slen <? Z.of_nat (buffer_size / 64)) in
          init f {| buffers := buffers m ++ [{| bdata := repeat None buffer_size; amt_used := 0 |}]; table := table m;
                    empty_string_myptr := empty_string_myptr m; init_buffer := init_buffer m |} s slen
        end
      end
    end
  end.
(** ConstantString.hpp:66-68, ConstantString(const std::string &). *)
Definition create (m : pool) (s : list Z) : res (pool * ptr) := init 2 m s (u32 (Z.of_nat (length s))).

(** memcmp *)
Fixpoint memcmp (a b : list Z) : Z :=
  match a, b with
  | x :: a', y :: b' => if x <? y then -1 else if y <? x then 1 else memcmp a' b'
  | _, _ => 0
  end.
(** ConstantString.hpp:109-113 compare; size() is a uint32_t. *)
Definition compare (m : pool) (p q : ptr) : res Z :=
  let! n1 := cs_length m p in
  let! n2 := cs_length m q in
  let cmplen := to_int ((if n1 <? n2 then n1 else n2) + 1) in
  let! (d1, o1) := area m p in
  let! (d2, o2) := area m q in
  let! a := read_at d1 o1 (Z.to_nat cmplen) in
  let! b := read_at d2 o2 (Z.to_nat cmplen) in
  Ok (memcmp a b).
(** ConstantString.hpp:155-157 equal: the pointers. *)
Definition ptr_eqb (p q : ptr) : bool :=
  match p, q with
  | Tmp, Tmp => true
  | At b o, At b' o' => Nat.eqb b b' && Nat.eqb o o'
  | _, _ => false
  end.
End cs.
