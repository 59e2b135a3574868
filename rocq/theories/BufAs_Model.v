(** Model of the typed accessors of ByteBuffer, include/Lintel/ByteBuffer.hpp:262-264, 316-318
    and 337-339, on the model of ByteBuffer. [size] is sizeof(T) and [align] alignof(T); the
    storage that new uint8_t[] returns is aligned for T. A pointer to T that is not a
    multiple of [align] is UB. Numbers of elements are a size_t, so their product with
    sizeof(T) wraps. *)
From Coq Require Import List Arith ZArith Bool.
From Verif Require Import Common ByteBuffer_Spec ByteBuffer_Model.
Import ListNotations.

(** extend_elements * sizeof(T), lines 317 and 338 *)
Definition byte_count (size : nat) (elements : Z) : nat := Z.to_nat ((elements * Z.of_nat size) mod 2 ^ 64).
Definition at_pos {A} (align pos : nat) (x : res A) : res A := if pos mod align =? 0 then x else UB.
(** b_i.writeStartAs<T>(elements), lines 316-318, and then writing the elements [ts] there one
    after the other *)
Definition writeAs (w : world) (i size align : nat) (elements : Z) (ts : list bytes) : res world :=
  mutate w i (fun r =>
    let pos := back r in
    let! r := nc_extend r (byte_count size elements) in
    at_pos align pos (store r pos (concat ts))).
(** b_i.extendAs<T>(elements), lines 337-339 *)
Definition extendAs (w : world) (i size : nat) (elements : Z) : res world :=
  mutate w i (fun r => nc_extend r (byte_count size elements)).
(** b_i.readStartAs<T>()[k], lines 262-264 *)
Definition readAs (w : world) (i size align k : nat) : res bytes :=
  let! (_, r) := rep_of w i in
  at_pos align (front r + k * size) (load r (front r + k * size) size).
