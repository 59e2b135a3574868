(** Specification of the positions of streams and of the modes of fopen64. *)
From Coq Require Import List Arith ZArith Bool.
From Verif Require Import Stdio_Model.
Import ListNotations.
Open Scope Z_scope.

(** The position of a stream: where the program reads or writes next. *)
Definition position (s : stream) : Z := offset (on s) - ahead s + pending s.
(** How long the file is once what is pending has arrived. *)
Definition length_of (s : stream) : Z := if 0 <? pending s then Z.max (size (on s)) (position s) else size (on s).
(** A stream reads or writes, and what it has read is from the file. *)
Definition valid (s : stream) : Prop :=
  0 <= size (on s) /\ 0 <= ahead s <= offset (on s) /\ 0 <= pending s /\ (ahead s = 0 \/ pending s = 0).
(** Where a seek is to go. *)
Definition goal (s : stream) (off : Z) (w : whence) : Z :=
  match w with SEEK_SET => off | SEEK_CUR => position s + off | SEEK_END => length_of s + off end.
(** The modes: "r", "rb", "w" and "wb". *)
Definition mode_of (mode : list Z) : option open_mode :=
  match mode with
  | [114] | [114; 98] => Some Reading
  | [119] | [119; 98] => Some Writing
  | _ => None
  end.
(** How many descriptors are in use. *)
Definition in_use (p : process) : nat := length (filter (fun o => match o with Some _ => true | None => false end) (fds p)).
