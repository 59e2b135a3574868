From Coq Require Import List ZArith Bool Lia Relations ZifyBool ZifyNat.
From Verif Require Import Common LockOrder_Model LockOrder_Spec.
Import ListNotations.
Local Open Scope Z_scope.

Lemma set_same : forall {X} (f : nat -> X) t x, set f t x t = x.
Proof. intros. unfold set. now rewrite Nat.eqb_refl. Qed.
Lemma set_other : forall {X} (f : nat -> X) t x u, u <> t -> set f t x u = f u.
Proof. intros. unfold set. destruct (Nat.eqb_spec u t); congruence. Qed.

(** The locks of a thread that are held, innermost first, with their position. *)
Fixpoint held (l : list scope) : list (nat * lock_obj) :=
  match l with
  | [] => []
  | SLock o :: r => (length r, o) :: held r
  | SUnlock _ _ :: r => tl (held r)
  end.
Definition top (h : list (nat * lock_obj)) : Z := match h with [] => 0 | (_, o) :: _ => l_level o end.
Fixpoint chain (h : list (nat * lock_obj)) : Prop :=
  match h with [] => True | (_, o) :: r => l_old o = top r /\ l_old o < l_level o /\ chain r end.
Fixpoint wf (l : list scope) : Prop :=
  match l with
  | [] => True
  | SLock o :: r => wf r
  | SUnlock p o :: r => wf r /\ chain (held r) /\ exists k, held r = (p, o) :: k
  end.

Lemma chain_below : forall h p o q, chain ((p, o) :: h) -> In q h -> l_level (snd q) < l_level o.
Proof.
  induction h as [|[p' o'] h IH]; intros p o q C Q; [contradiction|]. destruct C as (C1 & C2 & C3). cbn [top] in C1. destruct Q as [<-|Q].
  - cbn. lia.
  - specialize (IH p' o' q C3 Q). lia.
Qed.
Lemma chain_tl : forall h, chain h -> chain (tl h).
Proof. intros [|[p o] h] C; [exact I|apply C]. Qed.

(** A lock object on the stack that is not temporarily unlocked is held. *)
Lemma held_or_unlocked : forall l p o, wf l -> at_bottom l p = Some (SLock o) -> In (p, o) (held l) \/ exists o', In (SUnlock p o') l.
Proof.
  unfold at_bottom. induction l as [|sc l IH]; intros p o W E; [destruct p; discriminate|]. cbn [rev] in E.
  assert (C : nth_error (rev l) p = Some (SLock o) \/ (p = length l /\ sc = SLock o)).
  { destruct (Nat.lt_ge_cases p (length l)) as [L|L].
    - left. rewrite nth_error_app1 in E by (rewrite rev_length; exact L). exact E.
    - right. rewrite nth_error_app2 in E by (rewrite rev_length; exact L). rewrite rev_length in E. destruct (p - length l)%nat as [|j] eqn:D; [|destruct j; discriminate].
      cbn in E. injection E as ->. split; [lia|reflexivity]. }
  destruct C as [C|[-> ->]]; [|left; left; reflexivity].
  destruct sc as [o'|p' o']; cbn [wf held] in *.
  - destruct (IH p o W C) as [H|(x & H)]; [left; now right|right; exists x; now right].
  - destruct W as (W & _ & k & Ek). destruct (IH p o W C) as [H|(x & H)]; [|right; exists x; now right].
    rewrite Ek in *. destruct H as [H|H]; [injection H as -> ->; right; exists o; now left|left; exact H].
Qed.

(** What a thread holds: a lock being re-acquired by ~PThreadScopedUnlock is not held. *)
Definition held_of (x : thread) : list (nat * lock_obj) :=
  match ph x with Locking _ false => tl (held (scopes x)) | _ => held (scopes x) end.
Definition cur_ok (level : nat -> Z) (x : thread) : Prop :=
  match ph x with
  | Running => cur_level x = Some (top (held (scopes x))) \/ (cur_level x = None /\ scopes x = [])
  | Locking l true => cur_level x = Some (l_level l) /\ l_old l = top (held (scopes x)) /\ l_old l < l_level l /\ l_level l = level (l_mutex l)
  | Locking l false => cur_level x = Some (l_level l) /\ l_level l = level (l_mutex l) /\ exists p k, held (scopes x) = (p, l) :: k
  end.
Record TInv (level : nat -> Z) (x : thread) : Prop := {
  t_wf : wf (scopes x);
  t_chain : chain (held (scopes x));
  t_level : forall o, In (SLock o) (scopes x) -> l_level o = level (l_mutex o);
  t_cur : cur_ok level x
}.
Definition holds (x : thread) (m : nat) : Prop := exists q, In q (held_of x) /\ l_mutex (snd q) = m.
Record Inv (level : nat -> Z) (s : state) : Prop := {
  i_thread : forall t, TInv level (threads s t);
  i_holder : forall m t, holder s m = Some t <-> holds (threads s t) m
}.

Lemma held_in : forall l q, In q (held l) -> In (SLock (snd q)) l.
Proof.
  induction l as [|[o|p o] l IH]; intros q H; cbn [held] in H; [contradiction| |].
  - destruct H as [<-|H]; [now left|right; auto].
  - right. apply IH. destruct (held l); [contradiction|now right].
Qed.
Lemma held_of_in : forall x q, In q (held_of x) -> In q (held (scopes x)).
Proof. intros x q H. unfold held_of in H. destruct (ph x) as [|l []]; auto. destruct (held (scopes x)); [contradiction|now right]. Qed.

(** Distinct held locks have distinct mutexes. *)
Lemma chain_distinct : forall level h, chain h -> (forall q, In q h -> l_level (snd q) = level (l_mutex (snd q))) ->
  NoDup (map (fun q => l_mutex (snd q)) h).
Proof.
  induction h as [|[p o] h IH]; intros C L; cbn [map]; [constructor|]. constructor.
  - intros F. apply in_map_iff in F as (q & E & Hq). pose proof (chain_below h p o q C Hq) as B.
    rewrite (L q) in B by now right. pose proof (L (p, o) (or_introl eq_refl)) as E0. cbn [snd] in *. rewrite E in B. lia.
  - apply IH; [apply C|]. intros q Hq. apply L. now right.
Qed.

Lemma Inv_init : forall level, Inv level init.
Proof.
  intros level. constructor.
  - intros t. constructor; [exact I|exact I|intros o []|right; split; reflexivity].
  - intros m t. cbn. split; [discriminate|]. intros (q & H & _). contradiction.
Qed.

(** Changing one thread and the holder of mutex m. *)
Lemma Inv_update : forall level s t x h, Inv level s -> TInv level x ->
  (forall m, h m = Some t <-> holds x m) ->
  (forall m u, u <> t -> h m = Some u <-> holder s m = Some u) ->
  Inv level (mkState (set (threads s) t x) h).
Proof.
  intros level s t x h [IT IH] TX HT HO. constructor; cbn [threads holder].
  - intros u. destruct (Nat.eq_dec u t) as [->|N]; [rewrite set_same; exact TX|rewrite set_other by assumption; auto].
  - intros m u. destruct (Nat.eq_dec u t) as [->|N]; [rewrite set_same; auto|rewrite set_other by assumption]. rewrite HO by assumption. apply IH.
Qed.

Lemma unlock_ok : forall s t m, holder s m = Some t -> unlock s t m = Ok (set (holder s) m None).
Proof. intros s t m H. unfold unlock. rewrite H, Nat.eqb_refl. reflexivity. Qed.

(** Releasing the head of the held list. *)
Lemma holds_tail : forall level s t x m p o k, Inv level s -> held_of (threads s t) = (p, o) :: k -> l_mutex o = m ->
  TInv level (threads s t) -> held_of x = k ->
  (forall m', set (holder s) m None m' = Some t <-> holds x m') /\
  (forall m' u, u <> t -> set (holder s) m None m' = Some u <-> holder s m' = Some u).
Proof.
  intros level s t x m p o k IN HE EM TT HX. assert (HM : holder s m = Some t).
  { apply (i_holder _ _ IN). exists (p, o). rewrite HE. split; [now left|exact EM]. }
  assert (ND : NoDup (map (fun q => l_mutex (snd q)) (held_of (threads s t)))).
  { assert (C : chain (held_of (threads s t))) by (unfold held_of; destruct (ph (threads s t)) as [|l []]; try apply chain_tl; apply (t_chain _ _ TT)).
    apply (chain_distinct level); [exact C|]. intros q Hq. apply (t_level _ _ TT). apply held_in. now apply held_of_in. }
  rewrite HE in ND. cbn [map snd] in ND. inversion ND as [|? ? NI _]. subst m.
  split.
  - intros m'. destruct (Nat.eq_dec m' (l_mutex o)) as [->|N].
    + rewrite set_same. split; [discriminate|]. intros (q & Hq & E). rewrite HX in Hq. exfalso. apply NI. apply in_map_iff. exists q. split; assumption.
    + rewrite set_other by assumption. rewrite (i_holder _ _ IN). unfold holds. rewrite HE, HX. split.
      * intros (q & [<-|Hq] & E); [cbn in E; congruence|]. exists q. auto.
      * intros (q & Hq & E). exists q. split; [now right|exact E].
  - intros m' u N. destruct (Nat.eq_dec m' (l_mutex o)) as [->|N']; [rewrite set_same, HM; split; [discriminate|congruence]|rewrite set_other by assumption; tauto].
Qed.

Lemma step_inv : forall level s c, Inv level s -> correct_use level s c ->
  match step s c with
  | Ok s' => Inv level s'
  | Abort => True
  | _ => False
  end.
Proof.
  intros level s c IN CU. destruct c as [t|t m lv|t|t p|t]; cbn [step].
  - (* prepare *)
    pose proof (i_thread _ _ IN t) as T. apply Inv_update; auto; [|intros m; rewrite (i_holder _ _ IN)|tauto].
    + unfold prepare. destruct (cur_level (threads s t)) eqn:E; [exact T|]. destruct T as [W C L K]. constructor; cbn [scopes]; auto.
      unfold cur_ok in *. cbn [ph cur_level scopes]. destruct (ph (threads s t)) as [|l []].
      * left. destruct K as [K|[_ ->]]; [congruence|reflexivity].
      * destruct K; congruence.
      * destruct K; congruence.
    + unfold prepare. destruct (cur_level (threads s t)); [tauto|]. unfold holds, held_of. cbn [ph scopes]. tauto.
  - (* lock *)
    destruct CU as (-> & NN). pose proof (i_thread _ _ IN t) as T. destruct T as [W C L K]. unfold cur_ok in K.
    destruct (ph (threads s t)) eqn:Ep; [|exact IN]. destruct K as [K|[K _]]; [|congruence]. rewrite K. cbn [scopeDown].
    destruct (top (held (scopes (threads s t))) <? level m) eqn:LT; cbn [invariant bind]; [|exact I].
    apply Inv_update; auto; [|intros m'; rewrite (i_holder _ _ IN)|tauto].
    + constructor; cbn [scopes]; auto. unfold cur_ok. cbn [ph cur_level scopes l_level l_old l_mutex]. repeat split; lia.
    + unfold holds, held_of. rewrite Ep. cbn [ph scopes]. tauto.
  - (* acquire *)
    pose proof (i_thread _ _ IN t) as T. destruct T as [W C L K]. unfold cur_ok in K. destruct (ph (threads s t)) as [|l push] eqn:Ep; [exact IN|].
    destruct (holder s (l_mutex l)) eqn:EH; [exact IN|].
    assert (HO : forall m u, u <> t -> set (holder s) (l_mutex l) (Some t) m = Some u <-> holder s m = Some u).
    { intros m u N. destruct (Nat.eq_dec m (l_mutex l)) as [->|N']; [rewrite set_same, EH; split; [congruence|discriminate]|rewrite set_other by assumption; tauto]. }
    destruct push.
    + destruct K as (K1 & K2 & K3 & K4). apply Inv_update; auto.
      * constructor; cbn [scopes wf held chain]; auto.
        -- intros o [E|H]; [injection E as ->; exact K4|auto].
        -- unfold cur_ok. cbn [ph cur_level scopes held top]. now left.
      * intros m. unfold holds, held_of. cbn [ph scopes held]. destruct (Nat.eq_dec m (l_mutex l)) as [->|N].
        -- rewrite set_same. split; [|reflexivity]. intros _. exists (length (scopes (threads s t)), l). split; [now left|reflexivity].
        -- rewrite set_other by assumption. rewrite (i_holder _ _ IN). unfold holds, held_of. rewrite Ep. split.
           ++ intros (q & Hq & E). exists q. split; [now right|exact E].
           ++ intros (q & [<-|Hq] & E); [cbn in E; congruence|]. exists q. auto.
    + destruct K as (K1 & K2 & p & k & K3). apply Inv_update; auto.
      * constructor; cbn [scopes]; auto. unfold cur_ok. cbn [ph cur_level scopes]. left. rewrite K3. exact K1.
      * intros m. unfold holds, held_of. cbn [ph scopes]. rewrite K3. destruct (Nat.eq_dec m (l_mutex l)) as [->|N].
        -- rewrite set_same. split; [|reflexivity]. intros _. exists (p, l). split; [now left|reflexivity].
        -- rewrite set_other by assumption. rewrite (i_holder _ _ IN). unfold holds, held_of. rewrite Ep, K3. cbn [tl]. split.
           ++ intros (q & Hq & E). exists q. split; [now right|exact E].
           ++ intros (q & [<-|Hq] & E); [cbn in E; congruence|]. exists q. auto.
  - (* scoped unlock *)
    pose proof (i_thread _ _ IN t) as T. pose proof T as [W C L K]. unfold cur_ok in K. destruct (ph (threads s t)) as [|l push] eqn:Ep; [|exact IN].
    destruct (at_bottom (scopes (threads s t)) p) as [[o|p' o]|] eqn:EB; try exact IN.
    assert (IO : In (SLock o) (scopes (threads s t))) by (apply in_rev; unfold at_bottom in EB; now apply nth_error_In in EB).
    destruct K as [K|[_ K]]; [|rewrite K in IO; contradiction]. rewrite K. cbn [scopeUp].
    destruct (top (held (scopes (threads s t))) =? l_level o) eqn:EQ; cbn [invariant bind]; [|exact I].
    destruct (held_or_unlocked (scopes (threads s t)) p o W EB) as [H|H]; [|exfalso; apply CU; exact H].
    assert (HD : exists k, held (scopes (threads s t)) = (p, o) :: k).
    { destruct (held (scopes (threads s t))) as [|[p1 o1] k] eqn:EHD; [contradiction|]. cbn [top] in EQ. exists k. f_equal.
      destruct H as [H|H]; [exact H|]. pose proof (chain_below k p1 o1 (p, o) C H) as B. cbn [snd] in B. lia. }
    destruct HD as (k & HD). assert (HDO : held_of (threads s t) = (p, o) :: k) by (unfold held_of; rewrite Ep; exact HD).
    assert (HM : holder s (l_mutex o) = Some t) by (apply (i_holder _ _ IN); exists (p, o); rewrite HDO; split; [now left|reflexivity]).
    rewrite (unlock_ok s t (l_mutex o) HM). cbn [bind].
    set (x := mkThread (Some (l_old o)) (SUnlock p o :: scopes (threads s t)) Running).
    destruct (holds_tail level s t x (l_mutex o) p o k IN HDO eq_refl T) as [H1 H2]; [unfold held_of, x; cbn [ph scopes held]; rewrite HD; reflexivity|].
    apply Inv_update; auto. constructor; unfold x; cbn [scopes wf held].
    + split; [exact W|]. split; [exact C|]. exists k. exact HD.
    + rewrite HD. rewrite HD in C. apply C.
    + intros o' [E|Ho]; [discriminate|auto].
    + unfold cur_ok. cbn [ph cur_level scopes held]. left. rewrite HD in C |- *. cbn [tl]. destruct C as (C & _). now rewrite C.
  - (* end of scope *)
    pose proof (i_thread _ _ IN t) as T. pose proof T as [W C L K]. unfold cur_ok in K. destruct (ph (threads s t)) as [|l push] eqn:Ep; [|exact IN].
    destruct (scopes (threads s t)) as [|[o|p o] r] eqn:ES; [exact IN| |].
    + cbn [wf held] in *. assert (HDO : held_of (threads s t) = (length r, o) :: held r) by (unfold held_of; rewrite Ep, ES; reflexivity).
      assert (HM : holder s (l_mutex o) = Some t) by (apply (i_holder _ _ IN); exists (length r, o); rewrite HDO; split; [now left|reflexivity]).
      rewrite (unlock_ok s t (l_mutex o) HM). cbn [bind]. destruct K as [K|[_ K]]; [|discriminate]. rewrite K. cbn [top scopeUp]. rewrite Z.eqb_refl. cbn [invariant bind].
      set (x := mkThread (Some (l_old o)) r Running).
      destruct (holds_tail level s t x (l_mutex o) (length r) o (held r) IN HDO eq_refl T) as [H1 H2]; [reflexivity|].
      apply Inv_update; auto. destruct C as (C1 & C2 & C3). constructor; unfold x; cbn [scopes]; auto.
      * intros o' Ho. apply L. now right.
      * unfold cur_ok. cbn [ph cur_level scopes]. left. now rewrite C1.
    + cbn [wf held] in *. destruct W as (W & CR & k & Ek). rewrite Ek in *. cbn [tl] in *.
      destruct K as [K|[_ K]]; [|discriminate]. rewrite K. cbn [scopeDown]. destruct CR as (C1 & C2 & C3).
      replace (top k <? l_level o) with true by lia. cbn [invariant bind]. replace (top k =? l_old o) with true by lia. cbn [invariant bind].
      assert (LO : l_level o = level (l_mutex o)).
      { apply L. right. apply (held_in r (p, o)). rewrite Ek. now left. }
      apply Inv_update; auto; [|intros m; rewrite (i_holder _ _ IN)|tauto].
      * constructor; cbn [scopes]; auto.
        -- rewrite Ek. cbn [chain]. auto.
        -- intros o' Ho. apply L. now right.
        -- unfold cur_ok. cbn [ph cur_level scopes]. split; [reflexivity|]. split; [exact LO|]. exists p, k. exact Ek.
      * unfold holds, held_of. rewrite Ep, ES. cbn [ph scopes held]. rewrite Ek. cbn [tl]. tauto.
Qed.

Lemma reachable_inv : forall level s, reachable level s -> Inv level s.
Proof.
  intros level s R. induction R as [|s c s' R IH CU E]; [apply Inv_init|].
  pose proof (step_inv level s c IH CU) as H. rewrite E in H. exact H.
Qed.

(** The level a thread is waiting for. *)
Definition wait_level (level : nat -> Z) (x : thread) : Z := match ph x with Locking l _ => level (l_mutex l) | Running => 0 end.

Lemma waits_higher : forall level s t u v, Inv level s -> waits_for s t u -> waits_for s u v -> wait_level level (threads s t) < wait_level level (threads s u).
Proof.
  intros level s t u v IN (l & b & Et & Ht) (l' & b' & Eu & _). unfold wait_level. rewrite Et, Eu.
  apply (i_holder _ _ IN) in Ht as (q & Hq & Eq). pose proof (i_thread _ _ IN u) as [W C L K]. unfold held_of in Hq. unfold cur_ok in K. rewrite Eu in *.
  destruct b'.
  - destruct K as (_ & K2 & K3 & K4). rewrite <- K4, <- Eq. rewrite <- (L (snd q)) by (now apply held_in).
    destruct (held (scopes (threads s u))) as [|[p o] k]; [contradiction|]. cbn [top] in K2. destruct Hq as [<-|Hq]; [cbn; lia|].
    pose proof (chain_below k p o q C Hq). lia.
  - destruct K as (_ & K2 & p & k & K3). rewrite K3 in *. cbn [tl] in Hq. rewrite <- K2, <- Eq.
    rewrite <- (L (snd q)) by (apply held_in; rewrite K3; now right). apply (chain_below k p l' q C Hq).
Qed.

Lemma trans_higher : forall level s t u, Inv level s -> clos_trans nat (waits_for s) t u ->
  forall v, waits_for s u v -> wait_level level (threads s t) < wait_level level (threads s u).
Proof.
  intros level s t u IN C. induction C as [t u H|t w u C1 IH1 C2 IH2]; intros v V; [eapply waits_higher; eauto|].
  specialize (IH2 v V). assert (exists v', waits_for s w v').
  { clear - C2. induction C2 as [a b H|a b c _ IH _ _]; [eauto|exact IH]. }
  destruct H as (v' & V'). specialize (IH1 v' V'). lia.
Qed.

Lemma no_cycle : forall level s, Inv level s -> ~ deadlock s.
Proof.
  intros level s IN (t & C). assert (H : exists v, waits_for s t v).
  { assert (G : forall a b, clos_trans nat (waits_for s) a b -> exists v, waits_for s a v) by (intros a b K; induction K as [a b H|a b c _ IH _ _]; [eauto|exact IH]). eapply G; eauto. }
  destruct H as (v & V). pose proof (trans_higher level s t t IN C v V). lia.
Qed.
