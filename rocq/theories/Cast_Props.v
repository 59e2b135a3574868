(** C108: the safe pointer casts. *)
From Coq Require Import List Arith Lia Bool FinFun.
From Verif Require Import Common Cast_Model Cast_Spec.
Import ListNotations.

Section P.
Variable bases : nat -> list nat.
Hypothesis H : hierarchy bases.
Notation steps := (steps bases).
Notation paths := (paths bases).
Notation points_to := (points_to bases).

Lemma steps_le c p t : steps c p t -> t <= c /\ (p <> [] -> t < c).
Proof. induction 1 as [|c b p t Hb _ IH]; [split; [lia|easy]|]. destruct (H c) as (_ & Hlt). specialize (Hlt b Hb). split; [lia|intros _; lia]. Qed.
Lemma steps_app c p t q u : steps c p t -> steps t q u -> steps c (p ++ q) u.
Proof. induction 1; intros Hq; cbn; [exact Hq|]. constructor; auto. Qed.
Lemma steps_det c p t u : steps c p t -> steps c p u -> t = u.
Proof. intros Hs. revert u. induction Hs; intros u Hu; inversion Hu; subst; auto. Qed.
Lemma steps_split c p : forall q u, steps c (p ++ q) u -> exists t, steps c p t /\ steps t q u.
Proof. revert c. induction p as [|b p IH]; intros c q u Hs; cbn in *; [exists c; split; [constructor|exact Hs]|]. inversion Hs; subst. destruct (IH _ _ _ H5) as (t & A & B). exists t. split; [now constructor|exact B]. Qed.
Lemma paths_from_spec : forall n c t p, c <= n -> In p (paths_from bases n c t) <-> steps c p t.
Proof.
  induction n as [|n IH]; intros c t p Hc; cbn [paths_from]; rewrite in_app_iff.
  - split.
    + intros [Hin|[]]. destruct (Nat.eqb_spec c t); [|easy]. destruct Hin as [<-|[]]. subst. constructor.
    + intros Hs. left. destruct Hs as [|c b p t Hb Hs]; [rewrite Nat.eqb_refl; now left|]. destruct (H c) as (_ & Hlt). specialize (Hlt b Hb). lia.
  - split.
    + intros [Hin|Hin].
      * destruct (Nat.eqb_spec c t); [|easy]. destruct Hin as [<-|[]]. subst. constructor.
      * apply in_flat_map in Hin as (b & Hb & Hin). apply in_map_iff in Hin as (q & <- & Hq). constructor; [exact Hb|]. apply IH; [|exact Hq]. destruct (H c) as (_ & Hlt). specialize (Hlt b Hb). lia.
    + intros Hs. destruct Hs as [|c b p t Hb Hs]; [left; rewrite Nat.eqb_refl; now left|]. right. apply in_flat_map. exists b. split; [exact Hb|]. apply in_map. apply IH; [|exact Hs]. destruct (H c) as (_ & Hlt). specialize (Hlt b Hb). lia.
Qed.
Lemma paths_spec c t p : In p (paths c t) <-> steps c p t.
Proof. apply paths_from_spec. lia. Qed.
Lemma NoDup_app_disj {A} (l l' : list A) : NoDup l -> NoDup l' -> (forall x, In x l -> In x l' -> False) -> NoDup (l ++ l').
Proof. induction 1 as [|x l Hx N IH]; intros N' D; [exact N'|]. cbn. constructor; [|apply IH; [exact N'|intros y Hy; apply D; now right]]. rewrite in_app_iff. intros [Q|Q]; [easy|]. apply (D x); [now left|exact Q]. Qed.
Lemma paths_from_nodup : forall n c t, NoDup (paths_from bases n c t).
Proof.
  induction n as [|n IH]; intros c t; cbn [paths_from].
  - rewrite app_nil_r. destruct (c =? t); repeat constructor. easy.
  - apply NoDup_app_disj.
    + destruct (c =? t); repeat constructor. easy.
    + destruct (H c) as (N & _). induction N as [|b l Hb N IHl]; cbn [flat_map]; [constructor|]. apply NoDup_app_disj; [| exact IHl |].
      * apply Injective_map_NoDup; [intros x y Q; congruence|apply IH].
      * intros x Hx Hy. apply in_map_iff in Hx as (q & <- & _). apply in_flat_map in Hy as (b' & Hb' & Hy). apply in_map_iff in Hy as (q' & Q & _). congruence.
    + intros x Hx Hy. apply in_flat_map in Hy as (b & _ & Hy). apply in_map_iff in Hy as (q & <- & _). destruct (c =? t); [destruct Hx; [discriminate|easy]|easy].
Qed.
Lemma paths_one c t q : paths c t = [q] <-> steps c q t /\ (forall q', steps c q' t -> q' = q).
Proof.
  split.
  - intros E. split; [apply paths_spec; rewrite E; now left|]. intros q' Hq. apply paths_spec in Hq. rewrite E in Hq. now destruct Hq as [<-|[]].
  - intros (Hq & U). apply paths_spec in Hq. pose proof (paths_from_nodup c c t) as N. fold (paths c t) in N. assert (A : forall x, In x (paths c t) -> x = q) by (intros x Hx; apply U; now apply paths_spec).
    destruct (paths c t) as [|x [|y l]]; [easy|f_equal; apply A; now left|]. exfalso. inversion N as [|? ? N1 _]; subst. apply N1. left. rewrite (A x), (A y); [reflexivity|right; now left|now left].
Qed.
Lemma enclosing_some c p t q : enclosing c p t = Some q -> forall u, steps c p u -> steps c q t /\ exists r, p = q ++ r.
Proof.
  revert c q. induction p as [|b p IH]; intros c q E u Hs; cbn in E; destruct (Nat.eqb_spec c t) as [->|N]; try discriminate.
  - injection E as <-. split; [constructor|now exists []].
  - injection E as <-. split; [constructor|now exists (b :: p)].
  - destruct (enclosing b p t) as [q'|] eqn:E'; [|discriminate]. injection E as <-. inversion Hs; subst. destruct (IH _ _ E' _ H5) as (A & r & ->). split; [now constructor|now exists r].
Qed.
Lemma enclosing_none c p t : enclosing c p t = None -> forall q r, p = q ++ r -> ~ steps c q t.
Proof.
  revert c. induction p as [|b p IH]; intros c E q r Q Hs; cbn in E; destruct (Nat.eqb_spec c t) as [Ect|N]; try discriminate.
  - destruct q; [|discriminate]. inversion Hs. now subst.
  - destruct (enclosing b p t) eqn:E'; [discriminate|]. destruct q as [|b' q]; [inversion Hs; now subst|]. injection Q as <- ->. inversion Hs; subst. now apply (IH b E' q r).
Qed.
(** no two subobjects of one class are in one another *)
Lemma prefix_unique c q r q' r' t : q ++ r = q' ++ r' -> steps c q t -> steps c q' t -> q = q'.
Proof.
  revert c q'. induction q as [|b q IH]; intros c [|b' q'] Q A B; cbn in Q; auto.
  - inversion A; subst. destruct (steps_le _ _ _ B) as (_ & X). assert (t < t) by (apply X; discriminate). lia.
  - inversion B; subst. destruct (steps_le _ _ _ A) as (_ & X). assert (t < t) by (apply X; discriminate). lia.
  - injection Q as -> Q. inversion A; subst. inversion B; subst. f_equal. now apply (IH b' q').
Qed.
Lemma same_eq x y : same x y = true <-> x = y.
Proof.
  destruct x as [[w m p]|], y as [[w' m' p']|]; cbn [same whole made_as path]; try easy.
  destruct (Nat.eqb_spec w w'), (Nat.eqb_spec m m'), (list_eq_dec Nat.eq_dec p p'); cbn [andb]; split; intros Q; first [discriminate|congruence|reflexivity].
Qed.
Lemma not_both s t r : s <> t -> steps t r s -> paths s t = [].
Proof.
  intros N A. destruct (paths s t) as [|q l] eqn:E; [reflexivity|]. exfalso. assert (B : steps s q t) by (apply paths_spec; rewrite E; now left). destruct (steps_le _ _ _ A). destruct (steps_le _ _ _ B). lia.
Qed.

(** safeDownCast to a class that the static class is a base of: null gives null; a pointer to
    (a base part of) an object of the target class gives that object, the only one; any other
    pointer stops the program, in particular one to another base part of an object that has
    a target object elsewhere. *)
Theorem C108_downcast : forall s t x, s <> t -> base_of bases s t -> points_to x s ->
  match x with
  | None => safeDownCast bases s t None = Ok None
  | Some a => (exists b, safeDownCast bases s t x = Ok (Some b) /\ points_to (Some b) t /\ part_of a b /\ (forall b', points_to (Some b') t -> part_of a b' -> b' = b))
              \/ (safeDownCast bases s t x = Abort /\ forall b, points_to (Some b) t -> ~ part_of a b)
  end.
Proof.
  intros s t x N (r & Hr & U) Hx. assert (E1 : paths t s = [r]) by (apply paths_one; now split). pose proof (not_both s t r N Hr) as E2.
  destruct x as [[w m p]|]; unfold safeDownCast, dynamic_cast, compare; rewrite E1, E2; [|reflexivity]. cbn [made_as path whole]. cbn in Hx. destruct (enclosing m p t) as [q|] eqn:Ee.
  - left. destruct (enclosing_some _ _ _ _ Ee _ Hx) as (Hq & r' & ->). assert (r' = r) as ->.
    { apply U. destruct (steps_split _ _ _ _ Hx) as (t' & A & B). now rewrite <- (steps_det _ _ _ _ A Hq). }
    exists (mk_sub w m q). split; [|split; [exact Hq|split; [split; [reflexivity|split; [reflexivity|now exists r]]|]]].
    + unfold convert. rewrite E1. cbn [whole made_as path]. now rewrite (proj2 (same_eq _ _) eq_refl).
    + intros [w' m' p'] Hb (A & B & r' & C). cbn in *. subst w' m'. f_equal. symmetry. now apply (prefix_unique m q r p' r' t).
  - right. assert (F : forall b, points_to (Some b) t -> ~ part_of (mk_sub w m p) b).
    { intros [w' m' p'] Hb (A & B & r' & C). cbn in *. subst w' m'. now apply (enclosing_none _ _ _ Ee p' r' C). }
    split; [|exact F]. assert (X : forall ret, points_to ret t -> same (convert bases t s ret) (Some (mk_sub w m p)) = false).
    { intros ret Hret. destruct (same _ _) eqn:Es; [|reflexivity]. exfalso. apply same_eq in Es. unfold convert in Es. destruct ret as [b|]; [|discriminate]. rewrite E1 in Es. apply (F b Hret). injection Es as A1 A2 A3. split; [now symmetry|]. split; [now symmetry|]. exists r. now symmetry. }
    destruct (paths m t) as [|q [|q2 l]] eqn:Ep; cbv zeta; rewrite X; try reflexivity; try exact Logic.I. cbn. apply paths_spec. rewrite Ep. now left.
Qed.
(** safeDownCast to the static class itself or to a base of it always gives that part of what
    was pointed to. *)
Theorem C108_upcast : forall s t x, base_of bases t s -> points_to x s ->
  match x with
  | None => safeDownCast bases s t None = Ok None
  | Some a => exists b, safeDownCast bases s t x = Ok (Some b) /\ points_to (Some b) t /\ part_of b a
  end.
Proof.
  intros s t x (r & Hr & U) Hx. assert (E1 : paths s t = [r]) by (apply paths_one; now split). destruct x as [[w m p]|]; unfold safeDownCast, dynamic_cast, compare.
  - exists (mk_sub w m (p ++ r)). split; [|split; [now apply (steps_app _ _ s)|split; [reflexivity|split; [reflexivity|now exists r]]]]. rewrite E1. cbn [whole made_as path].
    assert (C : convert bases s t (Some (mk_sub w m p)) = Some (mk_sub w m (p ++ r))) by (unfold convert; now rewrite E1). rewrite C.
    destruct (Nat.eq_dec s t) as [<-|N].
    + assert (r = []) as -> by (symmetry; apply U; constructor). rewrite E1, app_nil_r in *. rewrite C. now rewrite (proj2 (same_eq _ _) eq_refl).
    + rewrite (not_both t s r) by (auto; congruence). now rewrite (proj2 (same_eq _ _) eq_refl).
  - rewrite E1. cbn [convert]. destruct (paths t s) as [|? [|]]; reflexivity.
Qed.
(** safeCrossCast never returns null: a pointer to (a base part of) a target object gives that
    object; else if the whole object has one target subobject it gives that; else, and for
    null, it stops the program. *)
Theorem C108_crosscast : forall s t x, (forall q, ~ steps s q t) -> points_to x s ->
  match x with
  | None => safeCrossCast bases s t None = Abort
  | Some a => (exists b, safeCrossCast bases s t x = Ok (Some b) /\ points_to (Some b) t /\ whole b = whole a /\ made_as b = made_as a /\
                (part_of a b \/ (forall b', points_to (Some b') t -> whole b' = whole a -> made_as b' = made_as a -> b' = b)))
              \/ (safeCrossCast bases s t x = Abort /\ (forall b, points_to (Some b) t -> ~ part_of a b) /\
                  ~ (exists b, points_to (Some b) t /\ whole b = whole a /\ made_as b = made_as a /\ forall b', points_to (Some b') t -> whole b' = whole a -> made_as b' = made_as a -> b' = b))
  end.
Proof.
  intros s t x N Hx. assert (E2 : paths s t = []). { destruct (paths s t) as [|q l] eqn:E; [reflexivity|]. exfalso. apply (N q). apply paths_spec. rewrite E. now left. }
  destruct x as [[w m p]|]; unfold safeCrossCast, dynamic_cast; rewrite E2; [|reflexivity]. cbn [made_as path whole]. cbn in Hx. destruct (enclosing m p t) as [q|] eqn:Ee.
  - left. destruct (enclosing_some _ _ _ _ Ee _ Hx) as (Hq & r' & ->). exists (mk_sub w m q). cbn. repeat (split; [first [reflexivity|exact Hq]|]). left. split; [reflexivity|]. split; [reflexivity|]. now exists r'.
  - assert (F : forall b, points_to (Some b) t -> ~ part_of (mk_sub w m p) b).
    { intros [w' m' p'] Hb (A & B & r' & C). cbn in *. subst w' m'. now apply (enclosing_none _ _ _ Ee p' r' C). }
    assert (Y : paths m t <> [] -> (forall q, paths m t <> [q]) -> ~ (exists b, points_to (Some b) t /\ whole b = w /\ made_as b = m /\ forall b', points_to (Some b') t -> whole b' = w -> made_as b' = m -> b' = b)).
    { intros _ Z ([w' m' p'] & Hb & A & B & U). cbn in *. subst w' m'. apply (Z p'). apply paths_one. split; [exact Hb|]. intros q' Hq. specialize (U (mk_sub w m q') Hq eq_refl eq_refl). congruence. }
    destruct (paths m t) as [|q [|q2 l]] eqn:Ep.
    + right. split; [reflexivity|]. split; [exact F|]. intros ([w' m' p'] & Hb & A & B & U). cbn in *. subst w' m'. apply paths_spec in Hb. now rewrite Ep in Hb.
    + left. apply paths_one in Ep as (A & B). exists (mk_sub w m q). cbn. repeat (split; [first [reflexivity|exact A]|]). right. intros [w' m' p'] Hb C D. cbn in *. subst w' m'. f_equal. now apply B.
    + right. split; [reflexivity|]. split; [exact F|]. apply Y; [discriminate|intros q'; discriminate].
Qed.
(** safeRef refers to what the pointer points to, and stops the program for null. *)
Theorem C108_ref : forall x, safeRef x = match x with Some a => Ok a | None => Abort end.
Proof. now intros [a|]. Qed.
(** What can be cast down can be cast back: a [t] pointer converted to the base class [s] and
    cast down again is the same pointer. *)
Theorem C108_roundtrip : forall s t x, s <> t -> base_of bases s t -> points_to x t ->
  points_to (convert bases t s x) s /\ safeDownCast bases s t (convert bases t s x) = Ok x.
Proof.
  intros s t x N (r & Hr & U) Hx. assert (E1 : paths t s = [r]) by (apply paths_one; now split). destruct x as [[w m p]|]; cbn [convert]; [|split; [exact Logic.I|]].
  - rewrite E1. cbn [whole made_as path]. assert (P : points_to (Some (mk_sub w m (p ++ r))) s) by (cbn; now apply (steps_app _ _ t)). split; [exact P|].
    destruct (C108_downcast s t (Some (mk_sub w m (p ++ r))) N (ex_intro _ r (conj Hr U)) P) as [(b & E & Hb & Pb & Ub)|(_ & F)].
    + rewrite E. rewrite <- (Ub (mk_sub w m p)); [reflexivity|exact Hx|]. split; [reflexivity|]. split; [reflexivity|]. now exists r.
    + exfalso. apply (F (mk_sub w m p) Hx). split; [reflexivity|]. split; [reflexivity|]. now exists r.
  - unfold convert. exact (C108_downcast s t None N (ex_intro _ r (conj Hr U)) Logic.I).
Qed.
End P.
Print Assumptions C108_downcast.
Print Assumptions C108_upcast.
Print Assumptions C108_crosscast.
Print Assumptions C108_ref.
Print Assumptions C108_roundtrip.

(** S = 0; A : S = 1; T : S = 2; D : A, T = 3. *)
Definition ex_bases (c : nat) : list nat := match c with 1 => [0] | 2 => [0] | 3 => [1; 2] | _ => [] end.
Example C108_ex :
  hierarchy ex_bases /\ base_of ex_bases 0 2 /\
  (* the S of T *)
  safeDownCast ex_bases 0 2 (Some (mk_sub 7 3 [2; 0])) = Ok (Some (mk_sub 7 3 [2])) /\
  (* the S of A: dynamic_cast finds the T beside it, safeDownCast does not accept it *)
  dynamic_cast ex_bases 0 2 (Some (mk_sub 7 3 [1; 0])) = Some (mk_sub 7 3 [2]) /\
  safeDownCast ex_bases 0 2 (Some (mk_sub 7 3 [1; 0])) = Abort /\
  safeCrossCast ex_bases 0 2 (Some (mk_sub 7 3 [1; 0])) = Ok (Some (mk_sub 7 3 [2])) /\
  (forall q, ~ steps ex_bases 0 q 2) /\ safeDownCast ex_bases 2 0 (Some (mk_sub 7 3 [2])) = Ok (Some (mk_sub 7 3 [2; 0])) /\
  safeDownCast ex_bases 0 2 (Some (mk_sub 7 1 [0])) = Abort.
Proof.
  split; [|split].
  - intros [|[|[|[|c]]]]; cbn; (split; [repeat constructor; cbn; lia|lia]).
  - exists [0]. split; [constructor; [now left|constructor]|]. intros r' Hr. inversion Hr as [|? ? ? ? Hb Hs]; subst. destruct Hb as [<-|[]]. inversion Hs as [|? ? ? ? Hb' _]; subst; [reflexivity|easy].
  - repeat split; try reflexivity. intros q Hq. inversion Hq; subst. easy.
Qed.
