(** Lemmas about the clocks of threads. *)
From Coq Require Import List Arith Bool Lia.
From Verif Require Import ClockTS_Model ClockTS_Spec.
Import ListNotations.

Lemma set_same {A} (f : nat -> A) i x : set f i x i = x.
Proof. unfold set. now rewrite Nat.eqb_refl. Qed.
Lemma set_other {A} (f : nat -> A) i x j : j <> i -> set f i x j = f j.
Proof. intros H. unfold set. apply Nat.eqb_neq in H. now rewrite H. Qed.
Lemma first_prefix a b : initialised_first (a ++ b) -> initialised_first a.
Proof. intros H x y t ->. apply (H x (y ++ b) t). now rewrite <- app_assoc. Qed.
Lemma first_get a t : initialised_first (a ++ [EGet t]) -> exists u, In (EInitDone u) a.
Proof. intros H. exact (H a [] t eq_refl). Qed.
Lemma stores_prefix a b : stores_work (a ++ b) -> stores_work a.
Proof. intros H t I. apply (H t). apply in_or_app. now left. Qed.
Lemma cal_app a b : calibrations (a ++ b) = calibrations a + calibrations b.
Proof. unfold calibrations. now rewrite filter_app, app_length. Qed.

(** The thread holds the mutex. *)
Definition critical (p : pc) : bool := match p with ICheck | IFlag | IKey | ICalibrate | IUnlock => true | _ => false end.
(** Before perThreadInit did anything: where threads may be. *)
Definition early (p : pc) : bool := match p with Idle | ILock | ICheck | IFlag => true | _ => false end.
Definition resting (p : pc) : bool := match p with Idle | ILock => true | _ => false end.
Definition late (p : pc) : bool := match p with IFlag | IKey | ICalibrate => false | _ => true end.
(** The thread found no clock. *)
Definition lacking (p : pc) : bool := match p with GTest | GNew | GSet _ => true | _ => false end.
Definition no_ours (s : state) : Prop := forall k, keys s k <> Some Ours.
Definition not_done (tr : list event) : Prop := forall t, ~ In (EInitDone t) tr.
Definition mine (own : list tid) (t : tid) (p : ptr) : Prop := exists n, p = Clk n /\ nth_error own n = Some t.
Inductive phase (s : state) (tr : list event) : Prop :=
  | P_before : did_init s = false -> no_ours s -> not_done tr -> calibrations tr = 0 -> (forall t, early (pcs s t) = true) -> phase s tr
  | P_key t0 : did_init s = true -> pcs s t0 = IKey -> no_ours s -> not_done tr -> calibrations tr = 0 ->
      (forall t, t <> t0 -> resting (pcs s t) = true) -> phase s tr
  | P_calibrate t0 : did_init s = true -> pcs s t0 = ICalibrate -> keys s (per_thread_clock s) = Some Ours -> not_done tr -> calibrations tr = 0 ->
      (forall t, t <> t0 -> resting (pcs s t) = true) -> phase s tr
  | P_done : did_init s = true -> calibrated s = true -> keys s (per_thread_clock s) = Some Ours -> calibrations tr = 1 ->
      (forall t, late (pcs s t) = true) -> phase s tr.
Record inv (own : list tid) (s : state) (tr : list event) : Prop := {
  i_len : length own = clocks s;
  i_crit : forall t, critical (pcs s t) = true -> locked s = Some t;
  i_phase : phase s tr;
  i_ours : forall k, keys s k = Some Ours -> k = per_thread_clock s;
  i_val : forall t p, keys s (per_thread_clock s) = Some Ours -> specific s t (per_thread_clock s) = Some p -> mine own t p;
  i_pend : forall t p, pcs s t = GSet p -> mine own t p;
  i_null : forall t, lacking (pcs s t) = true -> specific s t (per_thread_clock s) = None;
  i_ret : forall t p, In (EReturn t p) tr -> mine own t p /\ keys s (per_thread_clock s) = Some Ours /\
            (stores_work tr -> specific s t (per_thread_clock s) = Some p);
  i_ready : forall t, ~ In (ENotReady t) tr;
  i_lock : forall t, locked s = Some t -> critical (pcs s t) = true }.
Lemma inv_init : inv [] init [].
Proof.
  constructor; cbn; try discriminate; try tauto; try reflexivity.
  apply P_before; try reflexivity; [discriminate|intros t []].
Qed.
Lemma mine_more own u t p : mine own t p -> mine (own ++ [u]) t p.
Proof. intros (n & E & H). exists n. split; [exact E|]. rewrite nth_error_app1; [exact H|]. apply nth_error_Some. congruence. Qed.
(** Moving one thread *)
Lemma moved s t p u : pcs (at_pc s t p) u = if u =? t then p else pcs s u.
Proof. reflexivity. Qed.
Lemma no_done_nil tr es : not_done tr -> (forall t, ~ In (EInitDone t) es) -> not_done (tr ++ es).
Proof. intros A B t I. apply in_app_or in I. destruct I; [now apply (A t)|now apply (B t)]. Qed.
Ltac other := match goal with |- context [?u =? ?t] => destruct (Nat.eqb_spec u t); [subst|] end.
Lemma Some_inj {A} (x y : A) : Some x = Some y -> x = y.
Proof. intros H. now injection H. Qed.
Definition quiet (es : list event) : Prop := forall e, In e es ->
  match e with EReturn _ _ | ENotReady _ | EInitDone _ | ECalibrate _ => False | _ => True end.
Lemma quiet_nil : quiet [].
Proof. intros e []. Qed.
Lemma quiet_done tr es : quiet es -> not_done tr -> not_done (tr ++ es).
Proof. intros Q N. apply no_done_nil; [exact N|]. intros t I. exact (Q _ I). Qed.
Lemma quiet_cal tr es : quiet es -> calibrations (tr ++ es) = calibrations tr.
Proof.
  intros Q. rewrite cal_app. replace (calibrations es) with 0; [lia|].
  unfold calibrations. induction es as [|e es IH]; [reflexivity|]. cbn [filter]. pose proof (Q e (or_introl eq_refl)) as H.
  destruct e; try (destruct H; fail); apply IH; intros x I; apply Q; now right.
Qed.
Lemma quiet_ret own s tr es : quiet es ->
  (forall t p, In (EReturn t p) tr -> mine own t p /\ keys s (per_thread_clock s) = Some Ours /\ (stores_work tr -> specific s t (per_thread_clock s) = Some p)) ->
  (forall t p, In (EReturn t p) (tr ++ es) -> mine own t p /\ keys s (per_thread_clock s) = Some Ours /\ (stores_work (tr ++ es) -> specific s t (per_thread_clock s) = Some p)).
Proof.
  intros Q H t p I. apply in_app_or in I. destruct I as [I|I]; [|destruct (Q _ I)]. destruct (H t p I) as (A & B & C).
  split; [exact A|]. split; [exact B|]. intros S. apply C. now apply stores_prefix with es.
Qed.
Lemma quiet_ready tr es : quiet es -> (forall t, ~ In (ENotReady t) tr) -> forall t, ~ In (ENotReady t) (tr ++ es).
Proof. intros Q H t I. apply in_app_or in I. destruct I as [I|I]; [now apply (H t)|exact (Q _ I)]. Qed.
(** A step that only moves a thread *)
Lemma inv_move own s tr t p es : inv own s tr -> critical p = critical (pcs s t) ->
  (lacking p = true -> specific s t (per_thread_clock s) = None) -> (forall q, p = GSet q -> False) ->
  (forall u q, In (EReturn u q) es -> mine own u q /\ keys s (per_thread_clock s) = Some Ours /\ specific s u (per_thread_clock s) = Some q) ->
  (forall u, ~ In (ENotReady u) es) -> phase (at_pc s t p) (tr ++ es) -> inv own (at_pc s t p) (tr ++ es).
Proof.
  intros [A B C D E F G H K L] Cr La Gs Re Rd Ph. constructor; try assumption.
  - intros u. rewrite moved. other; [rewrite Cr|]; apply B.
  - intros u q. rewrite moved. other; [intros X; now destruct (Gs _ X)|apply F].
  - intros u. rewrite moved. other; [exact La|apply G].
  - intros u q I. apply in_app_or in I. destruct I as [I|I].
    + destruct (H u q I) as (X & Y & Z). split; [exact X|]. split; [exact Y|]. intros S. apply Z. now apply stores_prefix with es.
    + destruct (Re u q I) as (X & Y & Z). auto.
  - intros u I. apply in_app_or in I. destruct I as [I|I]; [now apply (K u)|now apply (Rd u)].
  - intros u. rewrite moved. cbn [at_pc locked]. intros X. apply L in X. other; [now rewrite Cr|exact X].
Qed.
Lemma phase_move s tr t p es : phase s tr -> quiet es -> 
  (did_init s = false -> early p = true) -> (did_init s = true -> late (pcs s t) = true -> late p = true) ->
  (forall t0, pcs s t0 = IKey \/ pcs s t0 = ICalibrate -> not_done tr -> resting (pcs s t) = true -> resting p = true) ->
  pcs s t <> IKey -> pcs s t <> ICalibrate -> phase (at_pc s t p) (tr ++ es).
Proof.
  intros Ph Q Ea La Rs Nk Nc. destruct Ph as [A B C D E|t0 A B C D E F|t0 A B C D E F|A B C D E].
  - apply P_before; try assumption; [now apply quiet_done|now rewrite quiet_cal|]. intros u. rewrite moved. other; [now apply Ea|apply E].
  - assert (N : t <> t0) by congruence. apply (P_key _ _ t0); try assumption.
    + rewrite moved. other; [contradiction|exact B].
    + now apply quiet_done.
    + now rewrite quiet_cal.
    + intros u Nu. rewrite moved. other; [|now apply F]. apply (Rs t0); auto.
  - assert (N : t <> t0) by congruence. apply (P_calibrate _ _ t0); try assumption.
    + rewrite moved. other; [contradiction|exact B].
    + now apply quiet_done.
    + now rewrite quiet_cal.
    + intros u Nu. rewrite moved. other; [|now apply F]. apply (Rs t0); auto.
  - apply P_done; try assumption; [now rewrite quiet_cal|]. intros u. rewrite moved. other; [apply La; [exact A|apply E]|apply E].
Qed.
Definition getting (p : pc) : bool := match p with GGet | GTest | GNew | GSet _ => true | _ => false end.
Lemma getting_done own s tr t : inv own s tr -> getting (pcs s t) = true ->
  did_init s = true /\ calibrated s = true /\ keys s (per_thread_clock s) = Some Ours /\ calibrations tr = 1 /\ (forall u, late (pcs s u) = true).
Proof.
  intros I G. destruct (i_phase _ _ _ I) as [A B C D E|t0 A B C D E F|t0 A B C D E F|A B C D E]; [| | |auto].
  - specialize (E t). destruct (pcs s t); discriminate.
  - destruct (Nat.eq_dec t t0) as [->|N]; [rewrite B in G; discriminate|]. specialize (F t N). destruct (pcs s t); discriminate.
  - destruct (Nat.eq_dec t t0) as [->|N]; [rewrite B in G; discriminate|]. specialize (F t N). destruct (pcs s t); discriminate.
Qed.
Lemma inv_abort own s tr es : inv own s tr -> quiet es -> inv own (abort s) (tr ++ es).
Proof.
  intros I Q. destruct I as [A B C D E F G H K L]. constructor; try assumption.
  - destruct C as [C1 C2 C3 C4 C5|t0 C1 C2 C3 C4 C5 C6|t0 C1 C2 C3 C4 C5 C6|C1 C2 C3 C4 C5].
    + apply P_before; try assumption; [now apply quiet_done|now rewrite quiet_cal].
    + apply (P_key _ _ t0); try assumption; [now apply quiet_done|now rewrite quiet_cal].
    + apply (P_calibrate _ _ t0); try assumption; [now apply quiet_done|now rewrite quiet_cal].
    + apply P_done; try assumption. now rewrite quiet_cal.
  - exact (quiet_ret own s tr es Q H).
  - now apply quiet_ready.
Qed.
(** A change of the keys and values of other code *)
Lemma inv_other own s s' tr : inv own s tr ->
  did_init s' = did_init s -> per_thread_clock s' = per_thread_clock s -> calibrated s' = calibrated s -> locked s' = locked s ->
  clocks s' = clocks s -> pcs s' = pcs s ->
  (forall k, keys s' k = Some Ours <-> keys s k = Some Ours) ->
  (forall t, keys s (per_thread_clock s) = Some Ours -> specific s' t (per_thread_clock s) = specific s t (per_thread_clock s)) ->
  inv own s' (tr ++ []).
Proof.
  rewrite app_nil_r. intros I E1 E2 E3 E4 E5 E6 E7 E8. destruct I as [A B C D E F G H K L].
  assert (LK : forall t, lacking (pcs s t) = true -> keys s (per_thread_clock s) = Some Ours).
  { intros t X. assert (Y : getting (pcs s t) = true) by (destruct (pcs s t); try discriminate; reflexivity).
    exact (proj1 (proj2 (proj2 (getting_done own s tr t (Build_inv _ _ _ A B C D E F G H K L) Y)))). }
  constructor; rewrite ?E1, ?E2, ?E3, ?E4, ?E5, ?E6; try assumption.
  - destruct C as [C1 C2 C3 C4 C5|t0 C1 C2 C3 C4 C5 C6|t0 C1 C2 C3 C4 C5 C6|C1 C2 C3 C4 C5].
    + apply P_before; rewrite ?E1, ?E6; try assumption. intros k X. apply E7 in X. now apply (C2 k).
    + apply (P_key _ _ t0); rewrite ?E1, ?E6; try assumption. intros k X. apply E7 in X. now apply (C3 k).
    + apply (P_calibrate _ _ t0); rewrite ?E1, ?E2, ?E6; try assumption. now apply E7.
    + apply P_done; rewrite ?E1, ?E2, ?E3, ?E6; try assumption. now apply E7.
  - intros k X. apply D. now apply E7.
  - intros t p X Y. apply E7 in X. rewrite E8 in Y by exact X. now apply E.
  - intros t X. rewrite E8; [now apply G|now apply LK with t].
  - intros t p X. destruct (H t p X) as (P1 & P2 & P3). split; [exact P1|]. split; [now apply E7|]. intros S. rewrite E8; auto.
Qed.
Lemma noev_ret {P : tid -> ptr -> Prop} es : quiet es -> forall u q, In (EReturn u q) es -> P u q.
Proof. intros Q u q I. destruct (Q _ I). Qed.
Lemma noev_ready es : quiet es -> forall u, ~ In (ENotReady u) es.
Proof. intros Q u I. exact (Q _ I). Qed.
Lemma quiet_one e : match e with EReturn _ _ | ENotReady _ | EInitDone _ | ECalibrate _ => False | _ => True end -> quiet [e].
Proof. intros H x [<-|[]]. exact H. Qed.
Lemma inv_step own s tr t c s' es : inv own s tr -> step t c s = Some (s', es) -> initialised_first (tr ++ es) ->
  exists own', inv own' s' (tr ++ es).
Proof.
  intros I St Fi. unfold step in St. destruct (dead s); [discriminate|].
  pose proof (i_crit _ _ _ I t) as Crit. pose proof (i_null _ _ _ I t) as Null. pose proof (i_pend _ _ _ I t) as Pend.
  pose proof (getting_done _ _ _ t I) as GD.
  destruct (pcs s t) as [| | | | | | | | | |p] eqn:PC; destruct c as [k| | | |k|k|k n]; try discriminate St.
  - (* call of perThreadInit *) injection St as <- <-. exists own.
    assert (Q : quiet [EInit t]) by now apply quiet_one.
    apply inv_move; try exact I; rewrite ?PC; try reflexivity; try discriminate; try (now apply noev_ready); [exact (noev_ret _ Q)|].
    apply phase_move; rewrite ?PC; try exact Q; try reflexivity; try discriminate. apply I.
  - (* call of perThread *) injection St as <- <-. exists own.
    assert (Q : quiet [EGet t]) by now apply quiet_one.
    apply inv_move; try exact I; rewrite ?PC; try reflexivity; try discriminate; try (now apply noev_ready); [exact (noev_ret _ Q)|].
    destruct (first_get _ _ Fi) as (u & Hu).
    apply phase_move; rewrite ?PC; try exact Q; try reflexivity; try discriminate; [apply I| |].
    + intros X. destruct (i_phase _ _ _ I) as [A B C D E|t0 A B C D E F|t0 A B C D E F|A B C D E]; try congruence. now destruct (C u).
    + intros t0 _ N. now destruct (N u).
  - (* other code *) destruct (keys s k) as [o|] eqn:K; [discriminate|]. injection St as <- <-. exists own.
    apply inv_other with s; try exact I; try reflexivity; cbn [create keys specific].
    + intros j. unfold set. destruct (Nat.eqb_spec j k) as [->|N]; [|tauto]. rewrite K. split; discriminate.
    + intros u X. apply set_other. congruence.
  - destruct (keys s k) as [[|]|] eqn:K; try discriminate. injection St as <- <-. exists own.
    apply inv_other with s; try exact I; try reflexivity; cbn [keys specific].
    intros j. unfold set. destruct (Nat.eqb_spec j k) as [->|N]; [|tauto]. rewrite K. split; discriminate.
  - destruct (keys s k) as [[|]|] eqn:K; try discriminate. injection St as <- <-. exists own.
    apply inv_other with s; try exact I; try reflexivity; cbn [with_value keys specific].
    intros u X. unfold set. destruct (Nat.eqb_spec u t) as [->|N]; [|reflexivity]. destruct (Nat.eqb_spec (per_thread_clock s) k) as [Ek|N]; [congruence|reflexivity].
  - (* lock *) destruct (locked s) as [u|] eqn:Lk; [discriminate|]. injection St as <- <-. exists own.
    pose proof I as [A B C D E F G H K L].
    assert (NC : forall u, critical (pcs s u) = true -> False) by (intros u X; apply B in X; congruence).
    rewrite app_nil_r. constructor; try assumption.
    + intros u. rewrite moved. cbn [at_pc with_lock locked pcs]. other; [reflexivity|]. intros X. now destruct (NC _ X).
    + assert (Ph : phase (at_pc s t ICheck) (tr ++ [])).
      { apply phase_move; rewrite ?PC; try exact C; try apply quiet_nil; try reflexivity; try discriminate.
        intros t0 X. exfalso. apply (NC t0). now destruct X as [->| ->]. }
      rewrite app_nil_r in Ph. destruct Ph as [C1 C2 C3 C4 C5|t0 C1 C2 C3 C4 C5 C6|t0 C1 C2 C3 C4 C5 C6|C1 C2 C3 C4 C5].
      * now apply P_before.
      * now apply (P_key _ _ t0).
      * now apply (P_calibrate _ _ t0).
      * now apply P_done.
    + intros u q. rewrite moved. other; [discriminate|apply F].
    + intros u. rewrite moved. other; [discriminate|apply G].
    + intros u. rewrite moved. cbn [at_pc with_lock locked]. intros X. injection X as <-. now rewrite Nat.eqb_refl.
  - (* test *) injection St as <- <-. exists own.
    apply inv_move; try exact I; rewrite ?PC; try (now apply noev_ready, quiet_nil); try exact (noev_ret _ quiet_nil); try (destruct (did_init s); (reflexivity || discriminate)).
    apply phase_move; rewrite ?PC; try discriminate; [apply I|apply quiet_nil|now intros ->|now intros ->].
  - (* did_per_thread_init = true *) injection St as <- <-. exists own. pose proof I as [A B C D E F G H K L].
    rewrite app_nil_r. specialize (Crit eq_refl). destruct C as [C1 C2 C3 C4 C5|t0 C1 C2 C3 C4 C5 C6|t0 C1 C2 C3 C4 C5 C6|C1 C2 C3 C4 C5].
    + assert (Rs : forall u, u <> t -> resting (pcs s u) = true).
      { intros u N. specialize (C5 u). destruct (pcs s u) eqn:X; try discriminate; try reflexivity; exfalso; apply N; apply Some_inj; rewrite <- Crit; symmetry; apply B; now rewrite X. }
      constructor; try assumption.
      * intros u. rewrite moved. cbn [at_pc with_init locked pcs]. other; [intros _; exact Crit|apply B].
      * apply (P_key _ _ t); try assumption; [reflexivity|rewrite moved; now rewrite Nat.eqb_refl|].
        intros u N. rewrite moved. other; [contradiction|now apply Rs].
      * intros u q. rewrite moved. other; [discriminate|apply F].
      * intros u. rewrite moved. other; [discriminate|apply G].
      * intros u. rewrite moved. cbn [at_pc with_init locked]. other; [reflexivity|apply L].
    + destruct (Nat.eq_dec t t0) as [->|N]; [congruence|]. specialize (C6 t N). rewrite PC in C6. discriminate.
    + destruct (Nat.eq_dec t t0) as [->|N]; [congruence|]. specialize (C6 t N). rewrite PC in C6. discriminate.
    + specialize (C5 t). rewrite PC in C5. discriminate.
  - (* pthread_key_create *) destruct (keys s k) as [o|] eqn:Kk; [discriminate|]. injection St as <- <-. exists own. pose proof I as [A B C D E F G H K L].
    rewrite app_nil_r. specialize (Crit eq_refl). destruct C as [C1 C2 C3 C4 C5|t0 C1 C2 C3 C4 C5 C6|t0 C1 C2 C3 C4 C5 C6|C1 C2 C3 C4 C5].
    + specialize (C5 t). rewrite PC in C5. discriminate.
    + destruct (Nat.eq_dec t t0) as [<-|N]; [|specialize (C6 t N); rewrite PC in C6; discriminate].
      constructor; cbn [at_pc with_var create did_init per_thread_clock calibrated locked keys specific clocks].
      * exact A.
      * intros u. rewrite moved. cbn [with_var create pcs]. other; [intros _; exact Crit|apply B].
      * apply (P_calibrate _ _ t); cbn [at_pc with_var create did_init per_thread_clock calibrated locked keys specific clocks pcs]; try assumption; try apply set_same.
        intros u N. rewrite set_other by exact N. now apply C6.
      * intros j. unfold set. destruct (Nat.eqb_spec j k) as [->|N]; [reflexivity|]. intros X. now destruct (C3 j).
      * intros u q _. rewrite set_same. discriminate.
      * intros u q. rewrite moved. cbn [with_var create pcs]. other; [discriminate|apply F].
      * intros u _. apply set_same.
      * intros u q X. destruct (H u q X) as (_ & Y & _). now destruct (C3 _ Y).
      * exact K.
      * intros u. rewrite moved. cbn [with_var create pcs]. other; [reflexivity|apply L].
    + destruct (Nat.eq_dec t t0) as [->|N]; [congruence|]. specialize (C6 t N). rewrite PC in C6. discriminate.
    + specialize (C5 t). rewrite PC in C5. discriminate.
  - injection St as <- <-. exists own. apply inv_abort; [exact I|now apply quiet_one].
  - (* calibrateClock *) injection St as <- <-. exists own. pose proof I as [A B C D E F G H K L].
    specialize (Crit eq_refl). destruct C as [C1 C2 C3 C4 C5|t0 C1 C2 C3 C4 C5 C6|t0 C1 C2 C3 C4 C5 C6|C1 C2 C3 C4 C5].
    + specialize (C5 t). rewrite PC in C5. discriminate.
    + destruct (Nat.eq_dec t t0) as [->|N]; [congruence|]. specialize (C6 t N). rewrite PC in C6. discriminate.
    + destruct (Nat.eq_dec t t0) as [<-|N]; [|specialize (C6 t N); rewrite PC in C6; discriminate].
      constructor; try assumption.
      * intros u. rewrite moved. cbn [at_pc with_calibrated locked pcs]. other; [intros _; exact Crit|apply B].
      * apply P_done; try assumption; [reflexivity|rewrite cal_app, C5; reflexivity|].
        intros u. rewrite moved. cbn [with_calibrated pcs]. other; [reflexivity|]. specialize (C6 u n). destruct (pcs s u); try discriminate; reflexivity.
      * intros u q. rewrite moved. other; [discriminate|apply F].
      * intros u. rewrite moved. other; [discriminate|apply G].
      * intros u q X. apply in_app_or in X. destruct X as [X|[X|[]]]; [|discriminate]. destruct (H u q X) as (P1 & P2 & P3).
        split; [exact P1|]. split; [exact P2|]. intros S. apply P3. now apply stores_prefix in S.
      * intros u X. apply in_app_or in X. destruct X as [X|[X|[]]]; [now apply (K u)|discriminate].
      * intros u. rewrite moved. cbn [at_pc with_calibrated locked pcs]. other; [reflexivity|apply L].
    + specialize (C5 t). rewrite PC in C5. discriminate.
  - (* unlock *) injection St as <- <-. exists own. pose proof I as [A B C D E F G H K L].
    specialize (Crit eq_refl). destruct C as [C1 C2 C3 C4 C5|t0 C1 C2 C3 C4 C5 C6|t0 C1 C2 C3 C4 C5 C6|C1 C2 C3 C4 C5].
    + specialize (C5 t). rewrite PC in C5. discriminate.
    + destruct (Nat.eq_dec t t0) as [->|N]; [congruence|]. specialize (C6 t N). rewrite PC in C6. discriminate.
    + destruct (Nat.eq_dec t t0) as [->|N]; [congruence|]. specialize (C6 t N). rewrite PC in C6. discriminate.
    + constructor; try assumption.
      * intros u. rewrite moved. cbn [at_pc with_lock locked pcs]. other; [discriminate|]. intros X. apply B in X. congruence.
      * apply P_done; try assumption; [rewrite cal_app, C4; reflexivity|].
        intros u. rewrite moved. cbn [with_lock pcs]. other; [reflexivity|apply C5].
      * intros u q. rewrite moved. other; [discriminate|apply F].
      * intros u. rewrite moved. other; [discriminate|apply G].
      * intros u q X. apply in_app_or in X. destruct X as [X|[X|[]]]; [|discriminate]. destruct (H u q X) as (P1 & P2 & P3).
        split; [exact P1|]. split; [exact P2|]. intros S. apply P3. now apply stores_prefix in S.
      * intros u X. apply in_app_or in X. destruct X as [X|[X|[]]]; [now apply (K u)|discriminate].
      * discriminate.
  - (* getspecific *) destruct (GD eq_refl) as (C1 & C2 & C3 & C4 & C5). unfold getspecific in St. rewrite C3 in St.
    destruct (specific s t (per_thread_clock s)) as [p|] eqn:Sp; injection St as <- <-; exists own.
    + apply inv_move; try exact I; rewrite ?PC; try reflexivity; try discriminate.
      * intros u q [X|[]]. injection X as <- <-. split; [now apply (i_val _ _ _ I)|]. split; assumption.
      * intros u [X|[]]. discriminate.
      * apply P_done; try assumption; [rewrite cal_app, C4; reflexivity|]. intros u. rewrite moved. other; [reflexivity|apply C5].
    + apply inv_move; try exact I; rewrite ?PC; try reflexivity; try discriminate; try (now apply noev_ready, quiet_nil); try exact (noev_ret _ quiet_nil); [now intros _|].
      apply P_done; try assumption; [rewrite app_nil_r; exact C4|]. intros u. rewrite moved. other; [reflexivity|apply C5].
  - (* test *) destruct (GD eq_refl) as (C1 & C2 & C3 & C4 & C5). rewrite C1, C2 in St. injection St as <- <-. exists own.
    apply inv_move; try exact I; rewrite ?PC; try reflexivity; try discriminate; try (now apply noev_ready, quiet_nil); try exact (noev_ret _ quiet_nil); [now intros _; apply Null|].
    apply P_done; try assumption; [rewrite app_nil_r; exact C4|]. intros u. rewrite moved. other; [reflexivity|apply C5].
  - (* new Clock *) destruct (GD eq_refl) as (C1 & C2 & C3 & C4 & C5). injection St as <- <-. exists (own ++ [t]).
    pose proof I as [A B C D E F G H K L]. rewrite app_nil_r. constructor; try assumption.
    + rewrite app_length, A. cbn. lia.
    + intros u. rewrite moved. cbn [at_pc with_clock locked pcs]. other; [discriminate|apply B].
    + apply P_done; try assumption. intros u. rewrite moved. cbn [with_clock pcs]. other; [reflexivity|apply C5].
    + intros u q X Y. apply mine_more. now apply E.
    + intros u q. rewrite moved. cbn [with_clock pcs]. other.
      * intros X. injection X as <-. exists (clocks s). split; [reflexivity|]. rewrite <- A. rewrite nth_error_app2, Nat.sub_diag by apply le_n. reflexivity.
      * intros X. apply mine_more. now apply F.
    + intros u. rewrite moved. cbn [with_clock pcs]. other; [intros _; now apply Null|apply G].
    + intros u q X. destruct (H u q X) as (P1 & P2 & P3). split; [now apply mine_more|]. split; assumption.
    + intros u. rewrite moved. cbn [at_pc with_clock locked pcs]. intros X. apply L in X. other; [rewrite PC in X; discriminate|exact X].
  - (* setspecific *) destruct (GD eq_refl) as (C1 & C2 & C3 & C4 & C5). injection St as <- <-. exists own.
    pose proof I as [A B C D E F G H K L]. specialize (Null eq_refl). specialize (Pend p eq_refl).
    assert (V : forall u, specific (at_pc (with_value s t (per_thread_clock s) (Some p)) t Idle) u (per_thread_clock s) =
                          if u =? t then Some p else specific s u (per_thread_clock s)).
    { intros u. cbn [at_pc with_value specific]. unfold set. destruct (u =? t); [now rewrite Nat.eqb_refl|reflexivity]. }
    constructor; try assumption.
    + intros u. rewrite moved. cbn [at_pc with_value locked pcs]. other; [discriminate|apply B].
    + apply P_done; try assumption; [rewrite cal_app, C4; reflexivity|]. intros u. rewrite moved. cbn [with_value pcs]. other; [reflexivity|apply C5].
    + intros u q _. change (per_thread_clock (at_pc (with_value s t (per_thread_clock s) (Some p)) t Idle)) with (per_thread_clock s).
      rewrite V. other; [intros X; now injection X as <-|now apply E].
    + intros u q. rewrite moved. cbn [with_value pcs]. other; [discriminate|apply F].
    + intros u. change (per_thread_clock (at_pc (with_value s t (per_thread_clock s) (Some p)) t Idle)) with (per_thread_clock s).
      rewrite V. rewrite moved. cbn [with_value pcs]. other; [discriminate|apply G].
    + intros u q X. change (per_thread_clock (at_pc (with_value s t (per_thread_clock s) (Some p)) t Idle)) with (per_thread_clock s).
      rewrite V. apply in_app_or in X. destruct X as [X|[X|[]]].
      * destruct (H u q X) as (P1 & P2 & P3). split; [exact P1|]. split; [exact P2|]. intros S. apply stores_prefix in S. specialize (P3 S).
        other; [congruence|exact P3].
      * injection X as <- <-. split; [exact Pend|]. split; [exact C3|]. intros _. now rewrite Nat.eqb_refl.
    + intros u X. apply in_app_or in X. destruct X as [X|[X|[]]]; [now apply (K u)|discriminate].
    + intros u. rewrite moved. cbn [at_pc with_value locked pcs]. intros X. apply L in X. other; [rewrite PC in X; discriminate|exact X].
  - (* setspecific fails *) destruct (GD eq_refl) as (C1 & C2 & C3 & C4 & C5). injection St as <- <-. exists own.
    pose proof I as [A B C D E F G H K L]. specialize (Pend p eq_refl).
    assert (NS : ~ stores_work (tr ++ [ESetFails t; EReturn t p])) by (intros S; apply (S t); apply in_or_app; right; now left).
    constructor; try assumption.
    + intros u. rewrite moved. other; [discriminate|apply B].
    + apply P_done; try assumption; [rewrite cal_app, C4; reflexivity|]. intros u. rewrite moved. other; [reflexivity|apply C5].
    + intros u q. rewrite moved. other; [discriminate|apply F].
    + intros u. rewrite moved. other; [discriminate|apply G].
    + intros u q X. apply in_app_or in X. destruct X as [X|[X|[X|[]]]]; [|discriminate|].
      * destruct (H u q X) as (P1 & P2 & P3). split; [exact P1|]. split; [exact P2|]. intros S. now destruct (NS S).
      * injection X as <- <-. split; [exact Pend|]. split; [exact C3|]. intros S. now destruct (NS S).
    + intros u X. apply in_app_or in X. destruct X as [X|[X|[X|[]]]]; [now apply (K u)|discriminate|discriminate].
    + intros u. rewrite moved. intros X. apply L in X. other; [rewrite PC in X; discriminate|exact X].
Qed.
Lemma inv_runs s tr : runs s tr -> initialised_first tr -> exists own, inv own s tr.
Proof.
  induction 1 as [|s tr t c s' es R IH St]; intros Fi; [exists []; apply inv_init|].
  destruct (IH (first_prefix _ _ Fi)) as (own & I). exact (inv_step _ _ _ _ _ _ _ I St Fi).
Qed.
Lemma inv_calibrations own s tr : inv own s tr -> calibrations tr <= 1 /\ forall t, In (EInitDone t) tr -> calibrations tr = 1.
Proof.
  intros I. destruct (i_phase _ _ _ I) as [A B C D E|t0 A B C D E F|t0 A B C D E F|A B C D E]; split; try lia; intros t X; try (now destruct (C t)); try (now destruct (D t)); lia.
Qed.
Lemma can_step own s tr t : inv own s tr -> dead s = false -> pcs s t <> Idle ->
  exists u c s' es, step u c s = Some (s', es) /\ (u = t \/ locked s = Some u) /\ pcs s u <> Idle.
Proof.
  intros I D N.
  assert (Own : forall u, pcs s u <> Idle -> pcs s u <> ILock -> exists c s' es, step u c s = Some (s', es)).
  { intros u N1 N2. unfold step. rewrite D. destruct (pcs s u) as [| | | | | | | | | |p]; try contradiction.
    - exists (Go 0). eexists. eexists. reflexivity.
    - exists (Go 0). eexists. eexists. reflexivity.
    - exists Fails. eexists. eexists. reflexivity.
    - exists (Go 0). eexists. eexists. reflexivity.
    - exists (Go 0). eexists. eexists. reflexivity.
    - exists (Go 0). destruct (getspecific _ _ _); eexists; eexists; reflexivity.
    - exists (Go 0). destruct (did_init s && calibrated s); eexists; eexists; reflexivity.
    - exists (Go 0). eexists. eexists. reflexivity.
    - exists (Go 0). eexists. eexists. reflexivity. }
  destruct (pcs s t) as [| | | | | | | | | |p] eqn:PC; try contradiction;
    try (destruct (Own t) as (c & s' & es & St); [congruence|congruence|]; exists t, c, s', es; split; [exact St|]; split; [now left|congruence]).
  destruct (locked s) as [u|] eqn:Lk.
  - pose proof (i_lock _ _ _ I u Lk) as Cr. destruct (Own u) as (c & s' & es & St); [intros X; rewrite X in Cr; discriminate|intros X; rewrite X in Cr; discriminate|].
    exists u, c, s', es. split; [exact St|]. split; [now right|intros X; rewrite X in Cr; discriminate].
  - exists t, (Go 0). unfold step. rewrite D, PC, Lk. eexists. eexists. split; [reflexivity|]. split; [now left|congruence].
Qed.
(** ** Without perThreadInit *)
Definition foreign (p : ptr) : Prop := exists n, p = Foreign n.
Record dark (s : state) (tr : list event) : Prop := {
  d_init : did_init s = false;
  d_pc : forall t, pcs s t = Idle \/ pcs s t = GGet \/ pcs s t = GTest;
  d_val : forall t k p, specific s t k = Some p -> foreign p;
  d_ret : forall t p, In (EReturn t p) tr -> foreign p }.
Lemma dark_step s tr t c s' es : dark s tr -> step t c s = Some (s', es) -> (forall u, ~ In (EInit u) es) -> dark s' (tr ++ es).
Proof.
  intros [A B C D] St N. unfold step in St. destruct (dead s); [discriminate|]. pose proof (B t) as Bt.
  assert (Ret : forall es', (forall u p, In (EReturn u p) es' -> foreign p) -> forall u p, In (EReturn u p) (tr ++ es') -> foreign p).
  { intros es' H u p X. apply in_app_or in X. destruct X as [X|X]; [now apply (D u)|now apply (H u)]. }
  destruct (pcs s t) eqn:PC; try (destruct Bt as [Bt|[Bt|Bt]]; discriminate); destruct c as [k| | | |k|k|k n]; try discriminate St.
  - exfalso. injection St as <- <-. apply (N t). now left.
  - injection St as <- <-. constructor; try assumption; [|apply Ret; intros u p [X|[]]; discriminate]. intros u. rewrite moved. other; [auto|apply B].
  - destruct (keys s k); [discriminate|]. injection St as <- <-. constructor; try assumption; [|apply Ret; intros u p []].
    intros u j p. cbn [create specific]. unfold set. destruct (j =? k); [discriminate|apply C].
  - destruct (keys s k) as [[|]|]; try discriminate. injection St as <- <-. constructor; try assumption. apply Ret; intros u p [].
  - destruct (keys s k) as [[|]|]; try discriminate. injection St as <- <-. constructor; try assumption; [|apply Ret; intros u p []].
    intros u j p. cbn [with_value specific]. unfold set. destruct (u =? t); [|apply C]. destruct (j =? k); [|apply C]. destruct n as [n|]; [|discriminate].
    cbn. intros X. injection X as <-. now exists n.
  - destruct (getspecific s t (per_thread_clock s)) as [p|] eqn:G; injection St as <- <-; constructor; try assumption.
    + intros u. rewrite moved. other; [auto|apply B].
    + apply Ret. intros u q [X|[]]. injection X as <- <-. unfold getspecific in G. destruct (keys s (per_thread_clock s)); [|discriminate]. now apply (C t (per_thread_clock s)).
    + intros u. rewrite moved. other; [auto|apply B].
    + apply Ret. intros u q [].
  - rewrite A in St. cbn [andb] in St. injection St as <- <-. constructor; try assumption. apply Ret. intros u q [X|[]]. discriminate.
Qed.
Lemma dark_runs s tr : runs s tr -> (forall u, ~ In (EInit u) tr) -> dark s tr.
Proof.
  induction 1 as [|s tr t c s' es R IH St]; intros N.
  - constructor; cbn; auto; [discriminate|intros t p []].
  - apply (dark_step s tr t c); [apply IH|exact St|]; intros u X; apply (N u); apply in_or_app; auto.
Qed.
