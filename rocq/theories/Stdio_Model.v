(** Model of fseek64, ftell64, fopen64 and freopen64, src/stdio_64.cpp:21-75, over a model of
    streams, descriptors and open files. *)
From Coq Require Import List Arith ZArith Bool.
From Verif Require Import Common.
Import ListNotations.
Open Scope Z_scope.

(** An open file: its size, the offset of the descriptor, and whether it has one (a pipe has
    not). *)
Record file : Type := mk_file { size : Z; offset : Z; seekable : bool }.
(** A stream: bytes read ahead from the file that the program has not got yet, bytes written
    that the file has not got yet, the end-of-file indicator. *)
Record stream : Type := mk_stream { ahead : Z; pending : Z; eof : bool; on : file }.
(** fflush, as POSIX defines it for both kinds of streams *)
Definition fflush (s : stream) : stream :=
  if seekable (on s)
  then let o := offset (on s) - ahead s + pending s in
       mk_stream 0 0 (eof s) (mk_file (Z.max (size (on s)) (if 0 <? pending s then o else 0)) o true)
  else mk_stream (ahead s) 0 (eof s) (on s).
Inductive whence : Type := SEEK_SET | SEEK_CUR | SEEK_END.
(** lseek64: -1 and no change if it cannot be *)
Definition lseek64 (f : file) (off : Z) (w : whence) : Z * file :=
  let o := match w with SEEK_SET => 0 | SEEK_CUR => offset f | SEEK_END => size f end + off in
  if seekable f && (0 <=? o) then (o, mk_file (size f) o true) else (-1, f).
(** fseek64, stdio_64.cpp:21-28 *)
Definition fseek64 (s : stream) (off : Z) (w : whence) : Z * stream :=
  let s := fflush s in
  let '(r, f) := lseek64 (on s) off w in
  (if r =? off then 0 else -1, mk_stream (ahead s) (pending s) (eof s) f).
(** ftell64, stdio_64.cpp:30-34 *)
Definition ftell64 (s : stream) : Z * stream :=
  let s := fflush s in
  let '(r, f) := lseek64 (on s) 0 SEEK_CUR in
  (r, mk_stream (ahead s) (pending s) (eof s) f).

(** The descriptors of the process: number [i] refers to an open file, by its number, or is
    free. [limit] is how many there may be. *)
Record process : Type := mk_process { fds : list (option nat); opened : nat; limit : nat }.
Fixpoint lowest (l : list (option nat)) : nat :=
  match l with None :: _ => O | Some _ :: l => S (lowest l) | [] => O end.
Fixpoint place (l : list (option nat)) (i : nat) (v : option nat) : list (option nat) :=
  match i, l with
  | O, _ :: r => v :: r
  | O, [] => [v]
  | S i, x :: r => x :: place r i v
  | S i, [] => None :: place [] i v
  end.
(** open(): the lowest free descriptor, for a new open file; [ok] says whether the file can
    be opened. *)
Definition open_fd (p : process) (ok : bool) : option nat * process :=
  let i := lowest (fds p) in
  if ok && (i <? limit p)%nat
  then (Some i, mk_process (place (fds p) i (Some (opened p))) (S (opened p)) (limit p))
  else (None, p).
Inductive open_mode : Type := Reading | Writing.
(** The checks of fopen64, stdio_64.cpp:41-56; exit(253) is Abort. The mode is its characters
    without the final NUL; reading past that is undefined. *)
Definition check_mode (mode : list Z) : res open_mode :=
  let! m1 := get (mode ++ [0]) 1 in
  let! _ := (if m1 =? 0 then Ok tt else let! m2 := get (mode ++ [0]) 2 in if m2 =? 0 then Ok tt else Abort) in
  let! _ := invariant ((m1 =? 98) || (m1 =? 0)) in
  let! m0 := get (mode ++ [0]) 0 in
  if m0 =? 114 then Ok Reading else if m0 =? 119 then Ok Writing else Abort.
(** fopen64, stdio_64.cpp:36-61: NULL is None, a stream is its descriptor *)
Definition fopen64 (p : process) (ok : bool) (mode : list Z) : res (option nat * process) :=
  let! _ := check_mode mode in
  Ok (open_fd p ok).
(** freopen64, stdio_64.cpp:63-75, of the stream on descriptor [file] *)
Definition freopen64 (p : process) (ok : bool) (mode : list Z) (fd : nat) : res (option nat * process) :=
  let! (ret, p) := fopen64 p ok mode in
  match ret with
  | None => Ok (None, p)
  | Some i => match nth i (fds p) None with
              | Some f => Ok (Some fd, mk_process (place (fds p) fd (Some f)) (opened p) (limit p))
              | None => UB
              end
  end.
