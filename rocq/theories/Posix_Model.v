(** Model of the reading functions of the posix namespace
    (include/Lintel/Posix.hpp:55-91).

    The kernel side is a descriptor: the bytes that can still be read before the end
    of file, and what the next calls of ::read do. [Give k] hands out at most k bytes
    (at least one, if there are any and any are wanted, as ::read promises): a short
    read of a pipe, socket, terminal or interrupted call. [Fail] returns -1. When the
    list is used up, every call hands out as much as it can. Bytes handed out beyond the end
    of the object the caller's pointer points into are undefined behaviour. *)
From Coq Require Import List ZArith Bool.
From Verif Require Import Common.
Import ListNotations.
Local Open Scope Z_scope.

Inductive answer := Give (k : nat) | Fail.
Record fd := mk_fd { unread : list Z; script : list answer }.

(** ::read(fd, _, nbyte): the bytes handed out, or None for -1 *)
Definition sys_read (f : fd) (nbyte : nat) : option (list Z) * fd :=
  match script f with
  | [] => (Some (firstn nbyte (unread f)), mk_fd (skipn nbyte (unread f)) [])
  | Fail :: r => (None, mk_fd (unread f) r)
  | Give k :: r => let m := Nat.min nbyte (Nat.max 1 k) in (Some (firstn m (unread f)), mk_fd (skipn m (unread f)) r)
  end.

(** The bytes land at [buf + off]. *)
Definition store (buf : list Z) (off : nat) (bytes : list Z) : res (list Z) :=
  if (off + length bytes <=? length buf)%nat then Ok (firstn off buf ++ bytes ++ skipn (off + length bytes) buf) else UB.

(** posix::read, Posix.hpp:55-60: the count returned, the buffer, the descriptor *)
Definition p_read (f : fd) (buf : list Z) (nbyte : nat) : res (Z * list Z * fd) :=
  let (got, f) := sys_read f nbyte in
  match got with
  | None => Abort
  | Some bytes => let! buf := store buf 0 bytes in Ok (Z.of_nat (length bytes), buf, f)
  end.

(** posix::read0, Posix.hpp:62-67 *)
Definition p_read0 (f : fd) (buf : list Z) (nbyte : nat) : res (list Z * fd) :=
  let (got, f) := sys_read f nbyte in
  match got with
  | None => Abort
  | Some bytes =>
    let! buf := store buf 0 bytes in
    let! _ := invariant (length bytes =? nbyte)%nat in
    Ok (buf, f)
  end.

(** posix::readN, Posix.hpp:69-84. The loop, which always asks for nbyte bytes, even
    for the rest. [left] is an ssize_t; the lengths are below 2^63 (they are lengths of
    objects in memory), so it does not overflow. *)
Fixpoint readN_loop (fuel : nat) (f : fd) (buf : list Z) (nbyte : nat) (buf2 : nat) (left : Z) : res (Z * list Z * fd) :=
  match fuel with
  | O => Fuel
  | S fuel =>
    let (got, f) := sys_read f nbyte in
    match got with
    | None => Abort
    | Some bytes =>
      let! buf := store buf buf2 bytes in
      let nb := Z.of_nat (length bytes) in
      if nb =? 0 then Ok (Z.of_nat nbyte - left, buf, f)
      else
        let left := left - nb in
        if left =? 0 then Ok (Z.of_nat nbyte, buf, f)
        else readN_loop fuel f buf nbyte (buf2 + length bytes) left
    end
  end.
Definition readN (fuel : nat) (f : fd) (buf : list Z) (nbyte : nat) : res (Z * list Z * fd) :=
  readN_loop fuel f buf nbyte 0 (Z.of_nat nbyte).
