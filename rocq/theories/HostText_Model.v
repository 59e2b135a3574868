(** Model of getHostFQDN, stringError, string2wstring and wstring2string,
    src/StringUtil.cpp:371-402, 407-439, 464-480. The system calls, the resolver and the ctype
    facet of the locale are arguments. Local char arrays are lists of bytes that may be
    indeterminate (None). *)
From Coq Require Import String List ZArith Bool.
From Verif Require Import Common Base64_Spec.
Import ListNotations.
Local Open Scope Z_scope.

(** string(buf): the bytes up to the zero; undefined if there is none in the array or an
    indeterminate byte comes first. *)
Fixpoint from_cstr (buf : list (option Z)) : res (list Z) :=
  match buf with
  | [] => UB
  | None :: _ => UB
  | Some c :: r => if c =? 0 then Ok [] else let! s := from_cstr r in Ok (c :: s)
  end.
(** What a library function stores at the start of an array *)
Definition store (bytes : list Z) (buf : list (option Z)) : list (option Z) :=
  map Some bytes ++ skipn (length bytes) buf.
(** buf[i] = '\0' *)
Definition put_zero (i : nat) (buf : list (option Z)) : res (list (option Z)) := put buf i (Some 0).

(** gethostname(buf, n) on a host with this name: a name that does not fit with its zero
    either fails or is cut off without one (POSIX leaves both open). *)
Record host := { h_name : list Z; h_fails : bool }.
Definition gethostname (h : host) (n : nat) (buf : list (option Z)) : bool * list (option Z) :=
  if Nat.ltb (length (h_name h)) n then (true, store (h_name h ++ [0]) buf)
  else if h_fails h then (false, buf) else (true, store (firstn n (h_name h)) buf).

(** lines 390-396: the loop over the answers *)
Fixpoint canon (hostname : list Z) (cur : list (option (list Z))) : list Z :=
  match cur with
  | [] => hostname
  | Some name :: _ => name
  | None :: r => canon hostname r
  end.
(** The answers of getaddrinfo for a name, None for an error (which leaves [res] alone, 0). The
    second result says how many lists were allocated and not freed. *)
Section FQDN.
Variable lookup : list Z -> option (list (option (list Z))).
Definition getHostFQDN (h : host) : res (list Z * Z) :=
  let buf := repeat None 1024 in                          (* line 372 *)
  let! buf := put_zero (length buf - 1) buf in            (* line 373 *)
  let (rc, buf) := gethostname h (length buf - 1) buf in
  let! _ := invariant rc in                               (* line 375 *)
  let! hostname := from_cstr buf in
  let! query := from_cstr buf in                          (* getaddrinfo(buf, ...), line 389 *)
  match lookup query with
  | None => Ok (hostname, 0)
  | Some answers =>
    let got := match answers with [] => 0 | _ => 1 end in
    let freed := match answers with [] => 0 | _ => 1 end in   (* line 399 *)
    Ok (canon hostname answers, got - freed)
  end.
End FQDN.

(** strerror_r of glibc: a text of its own, or one stored in the buffer, cut off to fit, or NULL. *)
Inductive message := Own (s : list Z) | Stored (s : list Z) | NoText.
(** lines 420-428 *)
Definition stringError (strerror_r : Z -> message) (errnum : Z) : res (list Z) :=
  let buf := repeat None 256 in
  match strerror_r errnum with
  | NoText => Ok (codes "strerror failed")
  | Own s => let! _ := put_zero 255 buf in from_cstr (map Some (s ++ [0]))
  | Stored s => let! buf := put_zero 255 (store (firstn 255 s ++ [0]) buf) in from_cstr buf
  end.
(** lines 414-419 and 429-434: the other strerror_r and strerror_s; it is not promised that a
    text which fills the buffer ends with a zero *)
Definition stringError_xsi (strerror_r : Z -> option (list Z)) (errnum : Z) : res (list Z) :=
  match strerror_r errnum with
  | None => Ok (codes "strerror failed")
  | Some s =>
    let! buf := put_zero 255 (store (firstn 256 (s ++ [0])) (repeat None 256)) in from_cstr buf
  end.

Section Wide.
(** ctype<wchar_t>::widen and narrow of the locale *)
Variables (widen : Z -> Z) (narrow : Z -> Z -> Z).
(** lines 464-471 *)
Definition string2wstring (s : list Z) : list Z := fold_left (fun out c => out ++ [widen c]) s [].
(** lines 473-480 *)
Definition wstring2string (s : list Z) (dfault : Z) : list Z := fold_left (fun out c => out ++ [narrow c dfault]) s [].
End Wide.
