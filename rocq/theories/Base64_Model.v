(** Model of include/Lintel/Base64.hpp (ASCIIbeticalB64). Characters and bytes
    are integers 0..255, uint32_t/uint64_t values are integers reduced modulo
    2^32/2^64. Only the overloads returning std::string are modelled for encode
    (the char* overloads run the same loops on a caller's buffer). The string
    starts filled with translate()[0]. The lazily built table of detranslate is
    modelled after its initialisation (Base64Race_Model has the race on first use). *)
From Coq Require Import List ZArith Bool.
From Verif Require Import Common Base64_Spec.
Import ListNotations.
Local Open Scope Z_scope.

Definition w32 (z : Z) : Z := z mod 2 ^ 32.
(** conversion to int32_t *)
Definition s32 (z : Z) : Z := let m := z mod 2 ^ 32 in if m <? 2 ^ 31 then m else m - 2 ^ 32.

(** Base64.hpp:24-28; every use has an index below 64. *)
Definition translate_table : list Z := codes alphabet.
Definition translate (i : Z) : Z := nth (Z.to_nat i) translate_table 0.

(** Base64.hpp:36-39, the filling loop: new char[256] is uninitialised. *)
Fixpoint fill_inverse (i : nat) (cs : list Z) (inv : list (option Z)) : list (option Z) :=
  match cs with
  | [] => inv
  | c :: r => fill_inverse (S i) r (upd inv (Z.to_nat c) (Some (Z.of_nat i)))
  end.
Definition inverse_table : list (option Z) := fill_inverse 0 translate_table (repeat None 256).

(** table[(uint32_t)data[in_off]], Base64.hpp:56: char is signed, so bytes
    from 128 up index far outside; other non-alphabet bytes read
    uninitialised memory. *)
Definition detranslate (c : Z) : res Z :=
  if 128 <=? c then UB
  else match nth_error inverse_table (Z.to_nat c) with Some (Some v) => Ok v | _ => UB end.

(** Base64.hpp:54-64; [k] is ret_size - out_off. Bytes never written keep
    translate()[0]. *)
Fixpoint decode_loop (data : list Z) (k : nat) (trans_buf bits : Z) : res (list Z) :=
  match data, k with
  | [], _ => Ok (repeat (translate 0) k)
  | _, O => Ok []
  | c :: r, S k' =>
    let! v := detranslate c in
    let trans_buf := w32 (trans_buf + w32 (v * 2 ^ (32 - 6 - bits))) in
    let bits := bits + 6 in
    if 8 <=? bits then
      let! rest := decode_loop r k' (w32 (trans_buf * 2 ^ 8)) (bits - 8) in
      Ok (trans_buf / 2 ^ (32 - 8) :: rest)
    else decode_loop r k trans_buf bits
  end.

(** Base64.hpp:47-66; a negative ret_size makes the string constructor throw. *)
Definition decode (data : list Z) : res (list Z) :=
  let ret_size := s32 (Z.of_nat (length data) * 6 / 8) in
  if ret_size <? 0 then Abort else decode_loop data (Z.to_nat ret_size) 0 0.

(** The digit loops at Base64.hpp:79-82 and 105-108: fills from the right. *)
Fixpoint number_loop (n : nat) (number : Z) (acc : list Z) : list Z :=
  match n with
  | O => acc
  | S n' => number_loop n' (number / 2 ^ 6) (translate (number mod 64) :: acc)
  end.

(** Base64.hpp:68-83 (uint32_t, width 32, default 6) and 94-109 (uint64_t,
    width 64, default 11); 85-92 and 111-118 (signed) cast first. *)
Definition encode_number (width dflt number digits : Z) : res (list Z) :=
  let number := number mod 2 ^ width in
  let digits := if digits =? 0 then dflt else digits in
  if digits <? 0 then Abort else Ok (number_loop (Z.to_nat digits) number []).
Definition encode32 := encode_number 32 6.
Definition encode64 := encode_number 64 11.

(** Base64.hpp:143-153: result is the emitted characters, then the number of
    characters still to produce, trans_buf and bits at loop exit. *)
Fixpoint encode_first (n : nat) (data : list Z) (trans_buf bits : Z) : list Z * (nat * Z * Z) :=
  match n, data with
  | O, _ => ([], (O, trans_buf, bits))
  | _, [] => ([], (n, trans_buf, bits))
  | S n', c :: r =>
    let '(data1, tb1, bits1) :=
      if bits <? 6 then (r, w32 (trans_buf + w32 (c * 2 ^ (32 - 8 - bits))), bits + 8) else (data, trans_buf, bits) in
    let '(out, fin) := encode_first n' data1 (w32 (tb1 * 2 ^ 6)) (w32 (bits1 - 6)) in
    (translate (tb1 / 2 ^ (32 - 6)) :: out, fin)
  end.
(** Base64.hpp:155-159: the spare bits; note that bits wraps below zero. *)
Fixpoint encode_spare (n : nat) (trans_buf bits : Z) : list Z :=
  match n with
  | O => []
  | S n' => if 0 <? bits then translate (trans_buf / 2 ^ (32 - 6)) :: encode_spare n' (w32 (trans_buf * 2 ^ 6)) (w32 (bits - 6))
            else repeat (translate 0) n
  end.
Definition encode_loops (n : nat) (data : list Z) (trans_buf bits : Z) : list Z :=
  let '(out, (n', tb, b)) := encode_first n data trans_buf bits in out ++ encode_spare n' tb b.

(** Base64.hpp:120-133: digits is an int32_t. *)
Definition encode_digits (size : nat) (digits : Z) : Z :=
  if digits =? 0 then
    let d := s32 (Z.of_nat size * 8) in
    if Z.rem d 6 =? 0 then Z.quot d 6 else Z.quot d 6 + 1
  else digits.
Definition encode_data (data : list Z) (digits : Z) : res (list Z) :=
  let d := encode_digits (length data) digits in
  if d <? 0 then Abort else Ok (encode_loops (Z.to_nat d) data 0 0).

(** Base64.hpp:173-183; [rdata] is what lies below in_off, nearest byte first:
    running out of it is a read before the data. The second loop, 185-189,
    never runs (out_off < 0). *)
Fixpoint backward_loop (n : nat) (rdata : list Z) (trans_buf bits : Z) (acc : list Z) : res (list Z) :=
  match n with
  | O => Ok acc
  | S n' =>
    let! (rdata1, tb1, bits1) :=
      (if bits <? 6 then
         match rdata with
         | [] => UB
         | c :: r => Ok (r, w32 (trans_buf + w32 (c * 2 ^ bits)), bits + 8)
         end
       else Ok (rdata, trans_buf, bits)) in
    backward_loop n' rdata1 (tb1 / 2 ^ 6) (w32 (bits1 - 6)) (translate (tb1 mod 64) :: acc)
  end.
(** Base64.hpp:165-190: the [digits] characters written to ret. *)
Definition encodeBackward (data : list Z) (digits : Z) : res (list Z) :=
  backward_loop (Z.to_nat digits) (rev data) 0 0 [].
