From Coq Require Import List ZArith Bool Lia ZifyBool ZifyNat.
From Verif Require Import SpinLock_Model SpinLock_Spec.
Import ListNotations.
Local Open Scope Z_scope.

Lemma set_same : forall f t x, set_thread f t x t = x.
Proof. intros. unfold set_thread. now rewrite Nat.eqb_refl. Qed.
Lemma set_other : forall f t x u, u <> t -> set_thread f t x u = f u.
Proof. intros. unfold set_thread. destruct (Nat.eqb_spec u t); congruence. Qed.

Lemma int32_small : forall z, - 2 ^ 31 <= z < 2 ^ 31 -> int32 z = z.
Proof. intros z H. unfold int32. rewrite Z.mod_small by lia. lia. Qed.

(** Only data stores. *)
Definition data_only (b : list (loc * Z)) : Prop := Forall (fun e => fst e = LData) b.
Definition inside_pc (p : pc) : bool := match p with Crit | CritW _ => true | _ => false end.
Definition owner (x : thread) : Prop := inside_pc (at_pc x) = true \/ buf x <> [].
Definition waiting (x : thread) : bool :=
  match at_pc x, buf x with GTest, [] | YFirst, [] | YTest _, [] => true | _, _ => false end.
Definition b2z (b : bool) : Z := if b then 1 else 0.

Fixpoint wcount (f : nat -> thread) (n : nat) : Z :=
  match n with O => 0 | S m => wcount f m + b2z (waiting (f m)) end.
Lemma wcount_out : forall f t x n, (n <= t)%nat -> wcount (set_thread f t x) n = wcount f n.
Proof. induction n as [|n IH]; intros L; cbn [wcount]; [reflexivity|]. rewrite IH by lia. rewrite set_other by lia. reflexivity. Qed.
Lemma wcount_set : forall f t x n, (t < n)%nat -> wcount (set_thread f t x) n = wcount f n - b2z (waiting (f t)) + b2z (waiting x).
Proof.
  induction n as [|n IH]; intros L; [lia|]. cbn [wcount]. destruct (Nat.eq_dec t n) as [->|N].
  - rewrite wcount_out by lia. rewrite set_same. lia.
  - rewrite IH by lia. rewrite set_other by lia. lia.
Qed.
Lemma wcount_bound : forall f n, 0 <= wcount f n <= Z.of_nat n.
Proof. induction n as [|n IH]; cbn [wcount]; [lia|]. unfold b2z. destruct (waiting (f n)); lia. Qed.

Lemma newest_app : forall l b c d, newest l (b ++ c) d = newest l c (newest l b d).
Proof. induction b as [|[l' v] b IH]; intros; cbn [app newest]; auto. Qed.
Lemma newest_lock_data : forall b d, data_only b -> newest LLock b d = d.
Proof. induction b as [|[l v] b IH]; intros d D; cbn [newest]; [reflexivity|]. inversion D as [|? ? E D']. cbn in E. subst. cbn. auto. Qed.

Section P.
Variable k : kind.
Variable n : nat.

(** Shape of a thread: inside it has only data stores pending; outside its buffer is empty or
    ends with the release of the lock. *)
Definition shape (x : thread) : Prop :=
  if inside_pc (at_pc x) then data_only (buf x)
  else buf x = [] \/ exists b, buf x = b ++ [(LLock, 1)] /\ data_only b.
Definition pc_kind (p : pc) : Prop :=
  match p, k with
  | Out, _ | Crit, _ | CritW _, _ => True
  | GDec, Glibc | GTest, Glibc => True
  | YFirst, Yield | YDec _, Yield | YTest _, Yield => True
  | ADec, AtomicSpin => True
  | _, _ => False
  end.
Definition bound (j : Z) (s : state) : Z := match k with AtomicSpin => j | _ => wcount (threads s) n end.

Record Inv (j : Z) (s : state) : Prop := {
  i_kind : forall t, pc_kind (at_pc (threads s t));
  i_out : forall t, (n <= t)%nat -> threads s t = mkThread Out [];
  i_shape : forall t, shape (threads s t);
  i_one : forall t u, owner (threads s t) -> owner (threads s u) -> t = u;
  i_free : (forall t, ~ owner (threads s t)) -> lock_word s = 1 /\ data s = increments s;
  i_held : forall t, owner (threads s t) ->
     - bound j s <= lock_word s <= 0 /\ load s (threads s t) LData = increments s /\
     (forall r, at_pc (threads s t) = CritW r -> r = increments s)
}.

Lemma Inv_init : Inv 0 init.
Proof.
  assert (NO : forall t, ~ owner (threads init t)) by (intros t [H|H]; cbn in H; congruence).
  constructor.
  - intros t. exact I.
  - reflexivity.
  - intros t. left. reflexivity.
  - intros t u H. now apply NO in H.
  - intros _. split; reflexivity.
  - intros t H. now apply NO in H.
Qed.

Lemma owner_dec : forall x, {owner x} + {~ owner x}.
Proof. intros x. unfold owner. destruct (inside_pc (at_pc x)); [left; auto|]. destruct (buf x) as [|e b]; [right|left; right; discriminate]. intros [H|H]; congruence. Qed.

(** Either some thread below n owns the lock, or none. *)
Lemma owner_search : forall (f : nat -> thread), (forall t, (n <= t)%nat -> f t = mkThread Out []) ->
  (exists o, owner (f o)) \/ (forall t, ~ owner (f t)).
Proof.
  intros f OUT. assert (H : forall m, (exists o, owner (f o)) \/ (forall t, (t < m)%nat -> ~ owner (f t))).
  { induction m as [|m [IH|IH]]; [right; lia|now left|]. destruct (owner_dec (f m)) as [O|O]; [left; eauto|].
    right. intros t Ht. destruct (Nat.eq_dec t m) as [->|]; [exact O|apply IH; lia]. }
  destruct (H n) as [O|O]; [now left|]. right. intros t. destruct (Nat.lt_ge_cases t n) as [L|L]; [auto|].
  rewrite OUT by exact L. intros [F|F]; cbn in F; congruence.
Qed.

(** A thread changes position without changing ownership or memory. *)
Lemma Inv_goto : forall j s t p, Inv j s -> (t < n)%nat -> pc_kind p ->
  inside_pc p = inside_pc (at_pc (threads s t)) ->
  (forall r, p = CritW r -> r = load s (threads s t) LData) ->
  (owner (threads s t) \/ b2z (waiting (threads s t)) <= b2z (waiting (mkThread p (buf (threads s t)))) \/ lock_word s = 1) ->
  Inv j (mkState (lock_word s) (data s) (set_thread (threads s) t (mkThread p (buf (threads s t)))) (increments s)).
Proof.
  intros j s t p [KI OUT SH ONE FREE HELD] LT KP EP RP WP.
  set (x := mkThread p (buf (threads s t))). set (f := set_thread (threads s) t x).
  assert (OW : forall u, owner (f u) <-> owner (threads s u)).
  { intros u. unfold f. destruct (Nat.eq_dec u t) as [->|N]; [rewrite set_same|rewrite set_other by assumption; tauto].
    unfold owner, x. cbn [at_pc buf]. rewrite EP. tauto. }
  constructor; cbn [threads lock_word data increments]; fold x; fold f.
  - intros u. unfold f. destruct (Nat.eq_dec u t) as [->|N]; [rewrite set_same; exact KP|rewrite set_other by assumption; auto].
  - intros u Hu. unfold f. rewrite set_other by lia. auto.
  - intros u. unfold f. destruct (Nat.eq_dec u t) as [->|N]; [rewrite set_same|rewrite set_other by assumption; auto].
    specialize (SH t). unfold shape in *. unfold x. cbn [at_pc buf]. rewrite EP. exact SH.
  - intros u v Hu Hv. apply OW in Hu. apply OW in Hv. auto.
  - intros NO. apply FREE. intros u Hu. apply OW in Hu. now apply (NO u).
  - intros u Hu. pose proof (proj1 (OW u) Hu) as Ou. destruct (HELD u Ou) as (B & D & R). split; [|split].
    + assert (BW : bound j s <= bound j (mkState (lock_word s) (data s) f (increments s))).
      { unfold bound. cbn [threads]. destruct k; try lia; unfold f; rewrite wcount_set by lia; unfold x.
        all: destruct WP as [WP|[WP|WP]]; try lia.
        all: assert (W0 : b2z (waiting (threads s t)) = 0) by (unfold waiting; destruct WP as [Q|Q]; [destruct (at_pc (threads s t)); cbn in Q; try discriminate; reflexivity|destruct (at_pc (threads s t)), (buf (threads s t)); cbn; congruence]).
        all: pose proof (wcount_bound (threads s) n); unfold b2z in *; destruct (waiting _); destruct (waiting _); lia. }
      lia.
    + unfold f. destruct (Nat.eq_dec u t) as [->|N]; [rewrite set_same|rewrite set_other by assumption]; exact D.
    + unfold f. destruct (Nat.eq_dec u t) as [->|N]; [rewrite set_same|rewrite set_other by assumption; exact R].
      intros r Er. rewrite (RP r Er). exact D.
Qed.

(** The decrement. *)
Lemma Inv_dec : forall j s t fail, Inv j s -> (t < n)%nat -> (Z.of_nat n <= 2 ^ 31) -> (k = AtomicSpin -> 0 <= j < 2 ^ 31 - 1) ->
  pc_kind fail -> inside_pc fail = false -> inside_pc (at_pc (threads s t)) = false ->
  (match k with AtomicSpin => True | _ => waiting (threads s t) = false /\ waiting (mkThread fail []) = true end) ->
  buf (threads s t) = [] ->
  Inv (j + 1) (mkState (int32 (lock_word s - 1)) (data s)
    (set_thread (threads s) t (mkThread (if int32 (lock_word s - 1) =? 0 then Crit else fail) [])) (increments s)).
Proof.
  intros j s t fail [KI OUT SH ONE FREE HELD] LT NB JB KF IF IT WT BT.
  assert (NT : ~ owner (threads s t)) by (intros [O|O]; congruence).
  destruct (owner_search (threads s) OUT) as [(o & O)|NO].
  - (* held by o *)
    destruct (HELD o O) as (B & D & R).
    assert (OT : o <> t) by (intros ->; auto).
    assert (LO : (o < n)%nat).
    { destruct (Nat.lt_ge_cases o n); [assumption|]. rewrite OUT in O by assumption. destruct O as [O|O]; cbn in O; congruence. }
    assert (WB : bound j s <= 2 ^ 31 - 1).
    { unfold bound. assert (W0 : wcount (threads s) n <= Z.of_nat n - 1).
      { pose proof (wcount_set (threads s) o (mkThread GTest []) n LO) as E. pose proof (wcount_bound (set_thread (threads s) o (mkThread GTest [])) n) as Q.
        assert (Wo : waiting (threads s o) = false) by (unfold waiting; destruct O as [Q'|Q']; [destruct (at_pc (threads s o)); cbn in Q'; try discriminate; reflexivity|destruct (at_pc (threads s o)), (buf (threads s o)); cbn; congruence]).
        rewrite Wo in E. cbn [b2z waiting at_pc buf] in E. lia. }
      destruct k; lia. }
    rewrite int32_small by lia. replace (lock_word s - 1 =? 0) with false by lia.
    set (x := mkThread fail []). set (f := set_thread (threads s) t x).
    assert (OW : forall u, owner (f u) <-> owner (threads s u)).
    { intros u. unfold f. destruct (Nat.eq_dec u t) as [->|N]; [rewrite set_same|rewrite set_other by assumption; tauto].
      split; [|tauto]. intros [Q|Q]; cbn [x at_pc buf] in Q; congruence. }
    constructor; cbn [threads lock_word data increments]; fold x; fold f.
    + intros u. unfold f. destruct (Nat.eq_dec u t) as [->|N]; [rewrite set_same; exact KF|rewrite set_other by assumption; auto].
    + intros u Hu. unfold f. rewrite set_other by lia. auto.
    + intros u. unfold f. destruct (Nat.eq_dec u t) as [->|N]; [rewrite set_same|rewrite set_other by assumption; auto].
      unfold shape, x. cbn [at_pc buf]. rewrite IF. now left.
    + intros u v Hu Hv. apply OW in Hu. apply OW in Hv. auto.
    + intros NO. exfalso. apply (NO o). now apply OW.
    + intros u Hu. apply OW in Hu. assert (u = o) by auto. subst u. split; [|split].
      * unfold bound in *. cbn [threads]. destruct k; try lia; destruct WT as [W1 W2]; unfold f, x; rewrite wcount_set by lia; rewrite W1, W2; cbn [b2z]; lia.
      * unfold f. rewrite set_other by assumption. exact D.
      * unfold f. rewrite set_other by assumption. exact R.
  - (* free *)
    destruct (FREE NO) as (L1 & D). rewrite L1. replace (1 - 1) with 0 by lia. rewrite int32_small by lia. rewrite Z.eqb_refl.
    set (x := mkThread Crit []). set (f := set_thread (threads s) t x).
    assert (OW : forall u, owner (f u) -> u = t).
    { intros u. unfold f. destruct (Nat.eq_dec u t) as [->|N]; [auto|]. rewrite set_other by assumption. intros Q. now apply NO in Q. }
    constructor; cbn [threads lock_word data increments]; fold x; fold f.
    + intros u. unfold f. destruct (Nat.eq_dec u t) as [->|N]; [rewrite set_same; exact I|rewrite set_other by assumption; auto].
    + intros u Hu. unfold f. rewrite set_other by lia. auto.
    + intros u. unfold f. destruct (Nat.eq_dec u t) as [->|N]; [rewrite set_same|rewrite set_other by assumption; auto]. constructor.
    + intros u v Hu Hv. apply OW in Hu. apply OW in Hv. congruence.
    + intros F. exfalso. apply (F t). unfold f. rewrite set_same. left. reflexivity.
    + intros u Hu. apply OW in Hu. subst u. split; [|split].
      * unfold bound. cbn [threads]. pose proof (wcount_bound f n). destruct k; lia.
      * unfold f. rewrite set_same. exact D.
      * unfold f. rewrite set_same. discriminate.
Qed.

Lemma Inv_more : forall j s, Inv j s -> Inv (j + 1) s.
Proof. intros j s [KI OUT SH ONE FREE HELD]. constructor; auto. intros t O. destruct (HELD t O) as (B & D). split; [|exact D]. unfold bound in *. destruct k; lia. Qed.

Lemma data_only_app : forall b c, data_only b -> data_only c -> data_only (b ++ c).
Proof. intros b c B C. apply Forall_app. split; assumption. Qed.

Lemma step_inv : forall j s c, Inv j s -> (who c < n)%nat -> (Z.of_nat n <= 2 ^ 31) -> (k = AtomicSpin -> 0 <= j < 2 ^ 31 - 1) -> Inv (j + 1) (step k s c).
Proof.
  intros j s c IN LT NB JB. pose proof (Inv_more j s IN) as IN1. pose proof IN as [KI OUT SH ONE FREE HELD].
  destruct c as [t|t|t|t|t]; cbn [who] in LT; cbn [step]; specialize (KI t) as Kt; specialize (SH t) as St.
  - (* lock *) destruct (at_pc (threads s t)) eqn:Ep; try exact IN1.
    apply Inv_goto; auto.
    + unfold lock_start, pc_kind. destruct k; exact I.
    + rewrite Ep. unfold lock_start. destruct k; reflexivity.
    + intros r. unfold lock_start. destruct k; discriminate.
    + right. left. unfold waiting. rewrite Ep. cbn [b2z]. unfold b2z. match goal with |- context [if ?c then _ else _] => destruct c end; lia.
  - (* step *) destruct (at_pc (threads s t)) eqn:Ep; try exact IN1; unfold pc_kind in Kt.
    + (* GDec *) destruct (buf (threads s t)) eqn:Eb; [|exact IN1]. destruct k eqn:Ek; try contradiction. apply Inv_dec; auto; try (unfold pc_kind; rewrite Ek; exact I); try (rewrite Ep; reflexivity); try congruence.
      rewrite Ek. split; [unfold waiting; rewrite Ep; reflexivity|reflexivity].
    + (* GTest *) destruct k eqn:Ek; try contradiction. destruct (0 <? load s (threads s t) LLock) eqn:V.
      * apply Inv_goto; auto; try (unfold pc_kind; rewrite Ek; exact I); try (rewrite Ep; reflexivity); try discriminate.
        destruct (owner_dec (threads s t)) as [O|O]; [now left|]. right. right.
        assert (Eb : buf (threads s t) = []) by (destruct (buf (threads s t)) eqn:Eb; [reflexivity|exfalso; apply O; right; rewrite Eb; discriminate]).
        unfold load in V. rewrite Eb in V. cbn [newest] in V. destruct (owner_search (threads s) OUT) as [(o & Q)|Q]; [destruct (HELD o Q) as (B & _); lia|apply (FREE Q)].
      * apply Inv_goto; auto; try (unfold pc_kind; rewrite Ek; exact I); try (rewrite Ep; reflexivity); try discriminate.
        right. left. unfold waiting. rewrite Ep. cbn [at_pc buf]. lia.
    + (* YFirst *) destruct k eqn:Ek; try contradiction. destruct (load s (threads s t) LLock =? 1) eqn:V.
      * apply Inv_goto; auto; try (unfold pc_kind; rewrite Ek; exact I); try (rewrite Ep; reflexivity); try discriminate.
        destruct (owner_dec (threads s t)) as [O|O]; [now left|]. right. right.
        assert (Eb : buf (threads s t) = []) by (destruct (buf (threads s t)) eqn:Eb; [reflexivity|exfalso; apply O; right; rewrite Eb; discriminate]).
        unfold load in V. rewrite Eb in V. cbn [newest] in V. lia.
      * apply Inv_goto; auto; try (unfold pc_kind; rewrite Ek; exact I); try (rewrite Ep; reflexivity); try discriminate.
        right. left. unfold waiting. rewrite Ep. cbn [at_pc buf]. lia.
    + (* YDec *) destruct (buf (threads s t)) eqn:Eb; [|exact IN1]. destruct k eqn:Ek; try contradiction. apply Inv_dec; auto; try (unfold pc_kind; rewrite Ek; exact I); try (rewrite Ep; reflexivity); try congruence.
      rewrite Ek. split; [unfold waiting; rewrite Ep; reflexivity|reflexivity].
    + (* YTest *) destruct k eqn:Ek; try contradiction. destruct (load s (threads s t) LLock =? 1) eqn:V.
      * apply Inv_goto; auto; try (unfold pc_kind; rewrite Ek; exact I); try (rewrite Ep; reflexivity); try discriminate.
        destruct (owner_dec (threads s t)) as [O|O]; [now left|]. right. right.
        assert (Eb : buf (threads s t) = []) by (destruct (buf (threads s t)) eqn:Eb; [reflexivity|exfalso; apply O; right; rewrite Eb; discriminate]).
        unfold load in V. rewrite Eb in V. cbn [newest] in V. lia.
      * destruct k0 as [|[|m]]; apply Inv_goto; auto; try (unfold pc_kind; rewrite Ek; exact I); try (rewrite Ep; reflexivity); try discriminate.
        all: right; left; unfold waiting; rewrite Ep; cbn [at_pc buf]; lia.
    + (* ADec *) destruct (buf (threads s t)) eqn:Eb; [|exact IN1]. destruct k eqn:Ek; try contradiction. apply Inv_dec; auto; try (unfold pc_kind; rewrite Ek; exact I); try (rewrite Ep; reflexivity); try congruence.
    + (* CritW *)
      assert (O : owner (threads s t)) by (left; rewrite Ep; reflexivity). destruct (HELD t O) as (B & D & R). specialize (R _ Ep). subst r.
      unfold shape in St. rewrite Ep in St. cbn [inside_pc] in St.
      set (x := mkThread Crit (buf (threads s t) ++ [(LData, increments s + 1)])). set (f := set_thread (threads s) t x).
      assert (OW : forall u, owner (f u) -> u = t).
      { intros u Hu. destruct (Nat.eq_dec u t) as [->|N]; [auto|]. unfold f in Hu. rewrite set_other in Hu by assumption. auto. }
      constructor; cbn [threads lock_word data increments]; fold x; fold f.
      * intros u. unfold f. destruct (Nat.eq_dec u t) as [->|N]; [rewrite set_same; exact I|rewrite set_other by assumption; auto].
      * intros u Hu. unfold f. rewrite set_other by lia. auto.
      * intros u. unfold f. destruct (Nat.eq_dec u t) as [->|N]; [rewrite set_same|rewrite set_other by assumption; auto].
        unfold shape, x. cbn [at_pc buf inside_pc]. apply data_only_app; [exact St|constructor; [reflexivity|constructor]].
      * intros u v Hu Hv. apply OW in Hu. apply OW in Hv. congruence.
      * intros F. exfalso. apply (F t). unfold f. rewrite set_same. left. reflexivity.
      * intros u Hu. apply OW in Hu. subst u. split; [|split].
        -- unfold bound in *. cbn [threads]. unfold f. rewrite wcount_set by lia. assert (WT : waiting (threads s t) = false) by (unfold waiting; rewrite Ep; reflexivity). rewrite WT. cbn [waiting x at_pc b2z]. destruct k; lia.
        -- unfold f. rewrite set_same. unfold load, x. cbn [buf]. rewrite newest_app. reflexivity.
        -- unfold f. rewrite set_same. discriminate.
  - (* read *) destruct (at_pc (threads s t)) eqn:Ep; try exact IN1.
    apply Inv_goto; auto; try (rewrite Ep; reflexivity); try exact I.
    + intros r E. injection E as <-. reflexivity.
    + left. left. rewrite Ep. reflexivity.
  - (* unlock *) destruct (at_pc (threads s t)) eqn:Ep; try exact IN1.
    assert (O : owner (threads s t)) by (left; rewrite Ep; reflexivity). destruct (HELD t O) as (B & D & R).
    unfold shape in St. rewrite Ep in St. cbn [inside_pc] in St.
    assert (PLAIN : Inv (j + 1) (mkState (lock_word s) (data s) (set_thread (threads s) t (mkThread Out (buf (threads s t) ++ [(LLock, 1)]))) (increments s))).
    { set (x := mkThread Out (buf (threads s t) ++ [(LLock, 1)])). set (f := set_thread (threads s) t x).
      assert (OX : owner x) by (right; cbn; intros E; now apply app_eq_nil in E).
      assert (OW : forall u, owner (f u) -> u = t).
      { intros u Hu. destruct (Nat.eq_dec u t) as [->|N]; [auto|]. unfold f in Hu. rewrite set_other in Hu by assumption. auto. }
      constructor; cbn [threads lock_word data increments]; fold x; fold f.
      * intros u. unfold f. destruct (Nat.eq_dec u t) as [->|N]; [rewrite set_same; exact I|rewrite set_other by assumption; auto].
      * intros u Hu. unfold f. rewrite set_other by lia. auto.
      * intros u. unfold f. destruct (Nat.eq_dec u t) as [->|N]; [rewrite set_same|rewrite set_other by assumption; auto].
        unfold shape, x. cbn [at_pc buf inside_pc]. right. eauto.
      * intros u v Hu Hv. apply OW in Hu. apply OW in Hv. congruence.
      * intros F. exfalso. apply (F t). unfold f. rewrite set_same. exact OX.
      * intros u Hu. apply OW in Hu. subst u. split; [|split].
        -- unfold bound in *. cbn [threads]. unfold f. rewrite wcount_set by lia. assert (WT : waiting (threads s t) = false) by (unfold waiting; rewrite Ep; reflexivity). rewrite WT. cbn [waiting x at_pc b2z]. destruct k; lia.
        -- unfold f. rewrite set_same. unfold load, x. cbn [buf]. rewrite newest_app. cbn [newest]. exact D.
        -- unfold f. rewrite set_same. discriminate. }
    destruct k eqn:Ek; try exact PLAIN.
    destruct (buf (threads s t)) as [|e b] eqn:Eb; [|exact IN1].
    set (x := mkThread Out []). set (f := set_thread (threads s) t x).
    assert (NO : forall u, ~ owner (f u)).
    { intros u Hu. unfold f in Hu. destruct (Nat.eq_dec u t) as [->|N]; [rewrite set_same in Hu; destruct Hu as [Q|Q]; cbn in Q; congruence|].
      rewrite set_other in Hu by assumption. auto. }
    constructor; cbn [threads lock_word data increments]; fold x; fold f.
    * intros u. unfold f. destruct (Nat.eq_dec u t) as [->|N]; [rewrite set_same; exact I|rewrite set_other by assumption; auto].
    * intros u Hu. unfold f. rewrite set_other by lia. auto.
    * intros u. unfold f. destruct (Nat.eq_dec u t) as [->|N]; [rewrite set_same|rewrite set_other by assumption; auto]. left. reflexivity.
    * intros u v Hu. now apply NO in Hu.
    * intros _. split; [reflexivity|]. unfold load in D. rewrite Eb in D. exact D.
    * intros u Hu. now apply NO in Hu.
  - (* flush *) destruct (buf (threads s t)) as [|(l, v) b] eqn:Eb; [exact IN1|].
    assert (O : owner (threads s t)) by (right; rewrite Eb; discriminate). destruct (HELD t O) as (B & D & R).
    assert (WT : waiting (threads s t) = false) by (unfold waiting; destruct (at_pc (threads s t)); rewrite ?Eb; reflexivity).
    destruct l.
    + (* the release reaches memory *)
      assert (LAST : inside_pc (at_pc (threads s t)) = false /\ v = 1 /\ b = []).
      { unfold shape in St. rewrite Eb in St. destruct (inside_pc (at_pc (threads s t))); [inversion St as [|? ? Q]; cbn in Q; discriminate|].
        split; [reflexivity|]. destruct St as [St|(c & E & Dc)]; [discriminate|]. destruct c as [|e c]; [injection E as -> ->; auto|].
        injection E as <- ->. inversion Dc as [|? ? Q]. cbn in Q. discriminate. }
      destruct LAST as (IP & -> & ->). set (x := mkThread (at_pc (threads s t)) []). set (f := set_thread (threads s) t x).
      assert (NO : forall u, ~ owner (f u)).
      { intros u Hu. unfold f in Hu. destruct (Nat.eq_dec u t) as [->|N]; [rewrite set_same in Hu; destruct Hu as [Q|Q]; cbn in Q; congruence|].
        rewrite set_other in Hu by assumption. auto. }
      constructor; cbn [threads lock_word data increments]; fold x; fold f.
      * intros u. unfold f. destruct (Nat.eq_dec u t) as [->|N]; [rewrite set_same; exact Kt|rewrite set_other by assumption; auto].
      * intros u Hu. unfold f. rewrite set_other by lia. auto.
      * intros u. unfold f. destruct (Nat.eq_dec u t) as [->|N]; [rewrite set_same|rewrite set_other by assumption; auto]. unfold shape, x. cbn [at_pc buf]. rewrite IP. now left.
      * intros u w Hu. now apply NO in Hu.
      * intros _. split; [reflexivity|]. unfold load in D. rewrite Eb in D. exact D.
      * intros u Hu. now apply NO in Hu.
    + set (x := mkThread (at_pc (threads s t)) b). set (f := set_thread (threads s) t x).
      assert (OW : forall u, owner (f u) -> u = t).
      { intros u Hu. destruct (Nat.eq_dec u t) as [->|N]; [auto|]. unfold f in Hu. rewrite set_other in Hu by assumption. auto. }
      assert (SX : shape x).
      { unfold shape in *. unfold x. cbn [at_pc buf]. rewrite Eb in St. destruct (inside_pc (at_pc (threads s t))); [now inversion St|].
        destruct St as [St|(c & E & Dc)]; [discriminate|]. destruct c as [|e c]; [discriminate|]. injection E as <- ->. right. exists c. split; [reflexivity|now inversion Dc]. }
      assert (OX : owner x).
      { unfold owner, x. cbn [at_pc buf]. unfold shape in St. destruct (inside_pc (at_pc (threads s t))); [now left|]. right. rewrite Eb in St.
        destruct St as [St|(c & E & Dc)]; [discriminate|]. destruct c as [|e c]; [discriminate|]. injection E as <- ->. intros F. now apply app_eq_nil in F. }
      constructor; cbn [threads lock_word data increments]; fold x; fold f.
      * intros u. unfold f. destruct (Nat.eq_dec u t) as [->|N]; [rewrite set_same; exact Kt|rewrite set_other by assumption; auto].
      * intros u Hu. unfold f. rewrite set_other by lia. auto.
      * intros u. unfold f. destruct (Nat.eq_dec u t) as [->|N]; [rewrite set_same; exact SX|rewrite set_other by assumption; auto].
      * intros u w Hu Hw. apply OW in Hu. apply OW in Hw. congruence.
      * intros F. exfalso. apply (F t). unfold f. rewrite set_same. exact OX.
      * intros u Hu. apply OW in Hu. subst u. split; [|split].
        -- unfold bound in *. cbn [threads]. unfold f. rewrite wcount_set by lia. rewrite WT. unfold b2z. destruct (waiting x); destruct k; lia.
        -- unfold f. rewrite set_same. unfold load in *. rewrite Eb in D. cbn [newest] in D. exact D.
        -- unfold f. rewrite set_same. exact R.
Qed.

Lemma run_inv : forall sched j s, Inv j s -> Forall (fun c => (who c < n)%nat) sched -> Z.of_nat n <= 2 ^ 31 ->
  (k = AtomicSpin -> 0 <= j /\ j + Z.of_nat (length sched) <= 2 ^ 31 - 1) -> Inv (j + Z.of_nat (length sched)) (run k s sched).
Proof.
  induction sched as [|c sched IH]; intros j s IN F NB JB; [cbn [length run fold_left]; replace (j + Z.of_nat 0) with j by lia; exact IN|].
  inversion F as [|? ? H F']. subst. cbn [length] in *. unfold run. cbn [fold_left]. replace (j + Z.of_nat (S (length sched))) with (j + 1 + Z.of_nat (length sched)) by lia.
  apply IH; auto.
  - apply step_inv; auto. intros E. specialize (JB E). lia.
  - intros E. specialize (JB E). lia.
Qed.

Lemma Inv_mutex : forall j s, Inv j s -> mutual_exclusion s /\ sees_all_increments s /\ no_increment_lost s.
Proof.
  intros j s [KI OUT SH ONE FREE HELD].
  assert (IO : forall t, inside s t -> owner (threads s t)) by (intros t H; left; unfold inside in H; destruct (at_pc (threads s t)); try contradiction; reflexivity).
  split; [intros t u Ht Hu; auto|]. split; [intros t Ht; exact (proj1 (proj2 (HELD t (IO t Ht))))|].
  intros EB. destruct (owner_search (threads s) OUT) as [(o & Q)|Q]; [|apply (FREE Q)].
  destruct (HELD o Q) as (_ & D & _). unfold load in D. rewrite EB in D. exact D.
Qed.
End P.
