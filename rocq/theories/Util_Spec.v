(** Specifications of the small utilities. *)
From Coq Require Import List Arith ZArith Bool.
From Verif Require Import Common StrInt_Spec Util_Model.
Import ListNotations.
Open Scope Z_scope.

(** The elements from [first] up to [last]. *)
Definition slice {A} (m : list A) (first last : nat) : list A := firstn (last - first) (skipn first m).

(** Time order: seconds, then nanoseconds. *)
Definition earlier (a b : Z * Z) : Prop := fst a < fst b \/ fst a = fst b /\ snd a < snd b.
Definition fits (z : Z) : Prop := - 2 ^ 63 <= z < 2 ^ 63.

(** A line of decimal numbers with a blank between them. *)
Inductive line : list Z -> list Z -> Prop :=
| L_last : forall s n, natural 10 s n -> line (s ++ [10]) [n]
| L_more : forall s n t ns, natural 10 s n -> line t ns -> line (s ++ 32 :: t) (n :: ns).
(** The file of a process with [fst ar] pages of address space, [snd ar] of them resident;
    sizes in bytes fit in 64 bits. *)
Definition statm (page : Z) (text : list Z) (ar : Z * Z) : Prop :=
  exists share txt lib data dt, line text [fst ar; snd ar; share; txt; lib; data; dt] /\
    fst ar < 2 ^ 64 /\ snd ar < 2 ^ 64 /\ fst ar * page < 2 ^ 64 /\ snd ar * page < 2 ^ 64.

(** What the calls answer: [seen] are the numbers of pages at the latest look, [now] those
    at the call. *)
Definition bytes_of (page : Z) (ar : Z * Z) (w : stattype) : res Z :=
  match w with AddressSize => Ok (fst ar * page) | ResidentSize => Ok (snd ar * page) | OtherType => Abort end.
Definition pspec (page : Z) (seen : Z * Z) (o : pop * (Z * Z)) : res ((Z * Z) * pans) :=
  let '(o, now) := o in
  match o with
  | PGet w => let! v := bytes_of page now w in Ok (now, PNum v)
  | PGetCached w => let! v := bytes_of page seen w in Ok (seen, PNum v)
  | PInvalidate => Ok (now, PUnit)
  | PSupported w => Ok (seen, PBool (match bytes_of page now w with Ok _ => true | _ => false end))
  end.
