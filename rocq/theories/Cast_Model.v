(** Model of lintel::safeDownCast, safeCrossCast and safeRef, include/Lintel/PointerUtil.hpp:34-100,
    over a model of objects with several bases. *)
From Coq Require Import List Arith Bool.
From Verif Require Import Common.
Import ListNotations.

(** Classes are numbered in the order of their definitions. [bases c] are the direct bases of
    class [c]. Simplification: all inheritance is public and none is virtual, so an object of
    class [d] has one subobject for each path from [d] to a base. *)
Section M.
Variable bases : nat -> list nat.
(** A pointer that is not null: the number of the whole object, the class that it was made
    as, and the path from it to the subobject that is pointed to. *)
Record subobject : Type := mk_sub { whole : nat; made_as : nat; path : list nat }.
Definition ptr : Type := option subobject.
(** The class at the end of a path from [c]; None if it is not a path. *)
Fixpoint class_at (c : nat) (p : list nat) : option nat :=
  match p with
  | [] => Some c
  | b :: p => if existsb (Nat.eqb b) (bases c) then class_at b p else None
  end.
(** All paths from [c] to [t]; the recursion bound is [c], as bases are defined before. *)
Fixpoint paths_from (n c t : nat) : list (list nat) :=
  (if c =? t then [[]] else []) ++
  match n with O => [] | S n => flat_map (fun b => map (cons b) (paths_from n b t)) (bases c) end.
Definition paths (c t : nat) : list (list nat) := paths_from c c t.
(** The subobject of class [t] on the way to [p], if there is one. *)
Fixpoint enclosing (c : nat) (p : list nat) (t : nat) : option (list nat) :=
  if c =? t then Some [] else
  match p with [] => None | b :: p => option_map (cons b) (enclosing b p t) end.
Definition same (x y : ptr) : bool :=
  match x, y with
  | None, None => true
  | Some a, Some b => (whole a =? whole b) && (made_as a =? made_as b) && (if list_eq_dec Nat.eq_dec (path a) (path b) then true else false)
  | _, _ => false
  end.
(** The conversion to a base: it compiles when there is one path. *)
Definition convert (from to : nat) (x : ptr) : ptr :=
  match x, paths from to with Some a, [q] => Some (mk_sub (whole a) (made_as a) (path a ++ q)) | _, _ => None end.
(** dynamic_cast<Target *>(x) with x a Source *, as the language defines it: to a base it is
    the conversion; else to the [target] object that the pointed-to subobject is in; else to
    the one [target] subobject of the whole object; else null. *)
Definition dynamic_cast (source target : nat) (x : ptr) : ptr :=
  match paths source target with
  | [_] => convert source target x
  | _ => match x with
         | None => None
         | Some a => match enclosing (made_as a) (path a) target with
                     | Some q => Some (mk_sub (whole a) (made_as a) q)
                     | None => match paths (made_as a) target with
                               | [q] => Some (mk_sub (whole a) (made_as a) q)
                               | _ => None
                               end
                     end
         end
  end.
(** The comparison ret == x of a Target * with a Source *: the one that is derived is
    converted to the other. *)
Definition compare (source target : nat) (ret x : ptr) : bool :=
  match paths target source with
  | [_] => same (convert target source ret) x
  | _ => same ret (convert source target x)
  end.
(** safeDownCast, PointerUtil.hpp:34-40 (and 57-66 for boost::shared_ptr) *)
Definition safeDownCast (source target : nat) (x : ptr) : res ptr :=
  let ret := dynamic_cast source target x in
  let! _ := invariant (compare source target ret x) in
  Ok ret.
(** safeCrossCast, PointerUtil.hpp:44-50 (and 71-79) *)
Definition safeCrossCast (source target : nat) (x : ptr) : res ptr :=
  let ret := dynamic_cast source target x in
  let! _ := invariant (match ret with Some _ => true | None => false end) in
  Ok ret.
(** safeRef, PointerUtil.hpp:83-107: the reference is to the object pointed to *)
Definition safeRef (x : ptr) : res subobject :=
  let! _ := invariant (match x with Some _ => true | None => false end) in
  match x with Some a => Ok a | None => UB end.
End M.
