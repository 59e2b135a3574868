(** Proofs about Atomic: the linearization is the order of the instruction that takes effect. *)
From Coq Require Import List ZArith Bool Lia Permutation.
From Verif Require Import Atomic_Spec Atomic_Model.
Import ListNotations.
Local Open Scope Z_scope.

Section P.
Variable w : Z.
Hypothesis W : 0 < w.

Lemma pow_pos : 2 ^ w <> 0.
Proof. apply Z.pow_nonzero; lia. Qed.

Definition pos_ok (op : aop) (p : pc) : Prop :=
  p = start w op \/ exists b v e post, p = ILoopCas b v e post /\ start w op = ILoopLoad b v post.
Definition is_ret (p : pc) : Prop := exists r, p = IRet r.

Lemma word_sub : forall m v, word w (m + word w (- v)) = word w (m - v).
Proof. intros m v. unfold word. rewrite Z.add_mod_idemp_r by exact pow_pos. f_equal. Qed.
Lemma word_add1 : forall m v, word w (m + word w v) = word w (m + v).
Proof. intros m v. unfold word. rewrite Z.add_mod_idemp_r by exact pow_pos. f_equal. Qed.

Lemma start_not_ret : forall op, ~ is_ret (start w op).
Proof. intros op (r & E). destruct op; discriminate. Qed.

Lemma instr_ok : forall m op p, pos_ok op p ->
  (exists r, snd (instr w m p) = IRet r /\ seq_op w m op = (fst (instr w m p), r)) \/
  (pos_ok op (snd (instr w m p)) /\ ~ is_ret (snd (instr w m p)) /\ fst (instr w m p) = m).
Proof.
  intros m op p [->|(b & v & e & post & -> & E)].
  - destruct op; cbn [start instr fst snd seq_op];
      try (left; eexists; split; [reflexivity|]; rewrite ?word_sub, ?word_add1; reflexivity);
      try (right; split; [right; do 4 eexists; split; reflexivity|]; split; [intros (r & E); discriminate|reflexivity]).
    left. destruct (m =? expected); eexists; split; reflexivity.
  - cbn [instr]. destruct (m =? e) eqn:C.
    + left. apply Z.eqb_eq in C. subst e. cbn [fst snd]. eexists. split; [reflexivity|].
      destruct op; cbn [start] in E; try discriminate; injection E as <- <- <-; reflexivity.
    + right. cbn [fst snd]. split; [right; do 4 eexists; split; [reflexivity|exact E]|]. split; [intros (r & F); discriminate|reflexivity].
Qed.

Lemma pos_ok_not_ret : forall op p, pos_ok op p -> ~ is_ret p.
Proof. intros op p [->|(b & v & e & post & -> & E)]; [apply start_not_ret|intros (r & F); discriminate]. Qed.

(** Facts on [sequential] and [before]. *)
Lemma sequential_snoc : forall s l s' id op, sequential w s l s' ->
  sequential w s (l ++ [mkDone id op (snd (seq_op w s' op))]) (fst (seq_op w s' op)).
Proof. intros s l s' id op H. induction H; cbn [app]; constructor; [constructor|assumption]. Qed.

Lemma before_app_l : forall {X} (a b : X) l k, before a b l -> before a b (l ++ k).
Proof. intros X a b l k (l1 & l2 & l3 & ->). exists l1, l2, (l3 ++ k). rewrite <- !app_assoc. cbn [app]. rewrite <- !app_assoc. reflexivity. Qed.
Lemma before_snoc : forall {X} (a b : X) l, In a l -> before a b (l ++ [b]).
Proof. intros X a b l H. apply in_split in H as (l1 & l2 & ->). exists l1, l2, []. rewrite <- app_assoc. reflexivity. Qed.
Lemma before_in : forall {X} (a b : X) l, before a b l -> In a l /\ In b l.
Proof. intros X a b l (l1 & l2 & l3 & ->). split; rewrite !in_app_iff; cbn [In]; rewrite ?in_app_iff; cbn [In]; tauto. Qed.
Lemma before_snoc_inv : forall {X} (a b c : X) l, before a b (l ++ [c]) -> before a b l \/ (b = c /\ In a l).
Proof.
  intros X a b c l (l1 & l2 & l3 & E). destruct (exists_last (l := b :: l3)) as (k & z & Ek); [discriminate|].
  assert (E' : l ++ [c] = (l1 ++ a :: l2 ++ k) ++ [z]) by (rewrite E, Ek, <- !app_assoc; cbn [app]; rewrite <- !app_assoc; reflexivity).
  apply app_inj_tail in E' as [-> ->]. destruct k as [|y k].
  - injection Ek as -> ->. right. split; [reflexivity|]. rewrite in_app_iff. cbn. tauto.
  - injection Ek as -> ->. left. exists l1, l2, k. reflexivity.
Qed.

Lemma NoDup_snoc : forall {X} (l : list X) a, NoDup l -> ~ In a l -> NoDup (l ++ [a]).
Proof.
  intros X l a H N. induction H as [|b l Hb H IH]; cbn [app]; [constructor; [auto|constructor]|]. constructor.
  - rewrite in_app_iff. cbn. intros [F|[F|[]]]; [auto|]. subst. apply N. now left.
  - apply IH. intros F. apply N. now right.
Qed.

Definition call_id (e : event) : nat := match e with Call i _ _ | Return i _ _ => i end.

Record GInv (v0 : Z) (s : state) (l : list done_op) : Prop := {
  g_lin : linearizes w v0 (history s) l (counter s);
  g_ids : forall e, In e (history s) -> (call_id e < next_id s)%nat;
  g_dids : forall d, In d l -> (d_id d < next_id s)%nat;
  g_threads : forall t id p, threads s t = Busy id p -> (id < next_id s)%nat /\
     (forall t' r, ~ In (Return id t' r) (history s)) /\
     exists op, In (Call id t op) (history s) /\
       ((~ In id (map d_id l) /\ pos_ok op p) \/ exists r, p = IRet r /\ In (mkDone id op r) l);
  g_distinct : forall t u id p q, threads s t = Busy id p -> threads s u = Busy id q -> t = u
}.

Lemma init_inv : forall v0, GInv v0 (init v0) [].
Proof.
  intros v0. constructor; cbn; try discriminate; try tauto; try (intros; contradiction).
  constructor; cbn; try tauto; try (intros; contradiction); constructor.
Qed.

Lemma set_same : forall f t x, set_thread f t x t = x.
Proof. intros. unfold set_thread. now rewrite Nat.eqb_refl. Qed.
Lemma set_other : forall f t x u, u <> t -> set_thread f t x u = f u.
Proof. intros. unfold set_thread. destruct (Nat.eqb_spec u t); congruence. Qed.

Lemma step_inv : forall v0 s l c, GInv v0 s l -> exists l', GInv v0 (step w s c) (l ++ l').
Proof.
  intros v0 s l c NOP. pose proof NOP as [LIN IDS DIDS THR DIS]. destruct LIN as [SEQ ONCE CALLED RET ORD].
  destruct c as [t op|t|t]; cbn [step].
  - destruct (threads s t) as [|id p] eqn:Et; [|exists []; rewrite app_nil_r; exact NOP].
    exists []. rewrite app_nil_r. constructor; cbn [counter threads next_id history].
    + constructor; auto.
      * intros d Hd. destruct (CALLED d Hd) as (u & Hu). exists u. apply in_or_app. auto.
      * intros id u r Hr. apply in_app_or in Hr as [Hr|[Hr|[]]]; [|discriminate]. destruct (RET id u r Hr) as (o & A & B). exists o. split; [apply in_or_app|]; auto.
      * intros a b u r t' op' Hb d e Hd He Da De. apply before_snoc_inv in Hb as [Hb|[Hb _]]; [eapply ORD; eauto|].
        injection Hb as -> -> ->. specialize (DIDS e He). lia.
    + intros e He. apply in_app_or in He as [He|[<-|[]]]; [specialize (IDS e He); lia|cbn; lia].
    + intros d Hd. specialize (DIDS d Hd). lia.
    + intros u id p Hu. destruct (Nat.eq_dec u t) as [->|N].
      * rewrite set_same in Hu. injection Hu as <- <-. split; [lia|]. split.
        -- intros t' r Hr. apply in_app_or in Hr as [Hr|[Hr|[]]]; [|discriminate]. specialize (IDS _ Hr). cbn in IDS. lia.
        -- exists op. split; [apply in_or_app; cbn; auto|]. left. split; [|left; reflexivity].
           intros Hi. apply in_map_iff in Hi as (d & E & Hd). specialize (DIDS d Hd). lia.
      * rewrite set_other in Hu by assumption. destruct (THR u id p Hu) as (A & B & o & C & D). split; [lia|]. split.
        -- intros t' r Hr. apply in_app_or in Hr as [Hr|[Hr|[]]]; [|discriminate]. apply (B t' r Hr).
        -- exists o. split; [apply in_or_app; auto|exact D].
    + intros u x id p q Hu Hx. destruct (Nat.eq_dec u t) as [->|N], (Nat.eq_dec x t) as [->|N']; auto.
      * rewrite set_same in Hu. injection Hu as <- <-. rewrite set_other in Hx by assumption. destruct (THR _ _ _ Hx). lia.
      * rewrite set_same in Hx. injection Hx as <- <-. rewrite set_other in Hu by assumption. destruct (THR _ _ _ Hu). lia.
      * rewrite set_other in Hu, Hx by assumption. eapply DIS; eauto.
  - destruct (threads s t) as [|id p] eqn:Et; [exists []; rewrite app_nil_r; exact NOP|].
    destruct (THR t id p Et) as (A & B & op & C & D). destruct D as [[D P]|(r & -> & D)].
    + pose proof (instr_ok (counter s) op p P) as IO. destruct (instr w (counter s) p) as [m' p'] eqn:EI. cbn [fst snd] in IO.
      destruct IO as [(r & -> & ES)|(P' & NR & ->)].
      * (* the operation takes effect *)
        exists [mkDone id op r]. assert (IN : forall d, In d (l ++ [mkDone id op r]) <-> In d l \/ d = mkDone id op r).
        { intros d. rewrite in_app_iff. cbn. intuition. }
        constructor; cbn [counter threads next_id history].
        -- constructor.
           ++ pose proof (sequential_snoc v0 l (counter s) id op SEQ) as Q. rewrite ES in Q. exact Q.
           ++ rewrite map_app. cbn [map d_id]. apply NoDup_snoc; auto.
           ++ intros d Hd. apply IN in Hd as [Hd| ->]; [auto|]. exists t. exact C.
           ++ intros i u x Hr. destruct (RET i u x Hr) as (o & E1 & E2). exists o. split; [exact E1|apply IN; auto].
           ++ intros a b u x t' op' Hb d e Hd He Da De. apply IN in Hd as [Hd| ->]; apply IN in He as [He| ->].
              ** apply before_app_l. eapply ORD; eauto.
              ** now apply before_snoc.
              ** cbn [d_id] in Da. subst a. apply before_in in Hb as [Hb _]. now apply B in Hb.
              ** cbn [d_id] in Da. subst a. apply before_in in Hb as [Hb _]. now apply B in Hb.
        -- exact IDS.
        -- intros d Hd. apply IN in Hd as [Hd| ->]; [auto|cbn; lia].
        -- intros u i q Hu. destruct (Nat.eq_dec u t) as [->|N].
           ++ rewrite set_same in Hu. injection Hu as <- <-. split; [exact A|]. split; [exact B|]. exists op. split; [exact C|]. right. exists r. split; [reflexivity|apply IN; auto].
           ++ rewrite set_other in Hu by assumption. destruct (THR u i q Hu) as (A' & B' & o & C' & D'). split; [exact A'|]. split; [exact B'|]. exists o. split; [exact C'|].
              destruct D' as [[D1 D2]|(x & -> & D')]; [left; split; [|exact D2]|right; exists x; split; [reflexivity|apply IN; auto]].
              rewrite map_app, in_app_iff. cbn. intros [F|[F|[]]]; [auto|]. subst i. apply N. eapply DIS; eauto.
        -- intros u x i q q' Hu Hx. destruct (Nat.eq_dec u t) as [->|N], (Nat.eq_dec x t) as [->|N']; auto.
           ++ rewrite set_same in Hu. injection Hu as <- <-. rewrite set_other in Hx by assumption. eapply DIS; eauto.
           ++ rewrite set_same in Hx. injection Hx as <- <-. rewrite set_other in Hu by assumption. eapply DIS; eauto.
           ++ rewrite set_other in Hu, Hx by assumption. eapply DIS; eauto.
      * exists []. rewrite app_nil_r. constructor; cbn [counter threads next_id history]; auto.
        -- constructor; auto.
        -- intros u i q Hu. destruct (Nat.eq_dec u t) as [->|N].
           ++ rewrite set_same in Hu. injection Hu as <- <-. split; [exact A|]. split; [exact B|]. exists op. auto.
           ++ rewrite set_other in Hu by assumption. now apply THR.
        -- intros u x i q q' Hu Hx. destruct (Nat.eq_dec u t) as [->|N], (Nat.eq_dec x t) as [->|N']; auto.
           ++ rewrite set_same in Hu. injection Hu as <- <-. rewrite set_other in Hx by assumption. eapply DIS; eauto.
           ++ rewrite set_same in Hx. injection Hx as <- <-. rewrite set_other in Hu by assumption. eapply DIS; eauto.
           ++ rewrite set_other in Hu, Hx by assumption. eapply DIS; eauto.
    + (* a finished operation: nothing happens *)
      exists []. rewrite app_nil_r. cbn [instr]. constructor; cbn [counter threads next_id history]; auto.
      * constructor; auto.
      * intros u i q Hu. destruct (Nat.eq_dec u t) as [->|N].
        -- rewrite set_same in Hu. injection Hu as <- <-. split; [exact A|]. split; [exact B|]. exists op. split; [exact C|]. right. eauto.
        -- rewrite set_other in Hu by assumption. now apply THR.
      * intros u x i q q' Hu Hx. destruct (Nat.eq_dec u t) as [->|N], (Nat.eq_dec x t) as [->|N']; auto.
        -- rewrite set_same in Hu. injection Hu as <- <-. rewrite set_other in Hx by assumption. eapply DIS; eauto.
        -- rewrite set_same in Hx. injection Hx as <- <-. rewrite set_other in Hu by assumption. eapply DIS; eauto.
        -- rewrite set_other in Hu, Hx by assumption. eapply DIS; eauto.
  - destruct (threads s t) as [|id p] eqn:Et; [exists []; rewrite app_nil_r; exact NOP|].
    destruct p; try (exists []; rewrite app_nil_r; exact NOP).
    exists []. rewrite app_nil_r. destruct (THR t id _ Et) as (A & B & op & C & D).
    destruct D as [[D P]|(x & E & D)]; [exfalso; apply (pos_ok_not_ret op _ P); exists r; reflexivity|]. injection E as <-.
    constructor; cbn [counter threads next_id history].
    + constructor; auto.
      * intros d Hd. destruct (CALLED d Hd) as (u & Hu). exists u. apply in_or_app. auto.
      * intros i u y Hr. apply in_app_or in Hr as [Hr|[Hr|[]]].
        -- destruct (RET i u y Hr) as (o & E1 & E2). exists o. split; [apply in_or_app; auto|exact E2].
        -- injection Hr as <- <- <-. exists op. split; [apply in_or_app; auto|exact D].
      * intros a b u y t' op' Hb. apply before_snoc_inv in Hb as [Hb|[Hb _]]; [eapply ORD; eauto|discriminate].
    + intros e He. apply in_app_or in He as [He|[<-|[]]]; [auto|cbn; lia].
    + exact DIDS.
    + intros u i q Hu. destruct (Nat.eq_dec u t) as [->|N]; [rewrite set_same in Hu; discriminate|].
      rewrite set_other in Hu by assumption. destruct (THR u i q Hu) as (A' & B' & o & C' & D'). split; [exact A'|]. split.
      * intros t' y Hr. apply in_app_or in Hr as [Hr|[Hr|[]]]; [now apply B' in Hr|]. injection Hr as <- <- <-. apply N. eapply DIS; eauto.
      * exists o. split; [apply in_or_app; auto|exact D'].
    + intros u x i q q' Hu Hx. destruct (Nat.eq_dec u t) as [->|N]; [rewrite set_same in Hu; discriminate|].
      destruct (Nat.eq_dec x t) as [->|N']; [rewrite set_same in Hx; discriminate|]. rewrite set_other in Hu, Hx by assumption. eapply DIS; eauto.
Qed.

Lemma run_inv : forall v0 sched s l, GInv v0 s l -> exists l', GInv v0 (run w s sched) l'.
Proof.
  induction sched as [|c sched IH]; intros s l G; [exists l; exact G|].
  unfold run. cbn [fold_left]. destruct (step_inv v0 s l c G) as (l' & G'). exact (IH _ _ G').
Qed.

(** Calls are unique and each is pending or returned. *)
Fixpoint calls (h : list event) : list (nat * aop) :=
  match h with
  | [] => []
  | Call i _ op :: r => (i, op) :: calls r
  | Return _ _ _ :: r => calls r
  end.
Lemma calls_app : forall h k, calls (h ++ k) = calls h ++ calls k.
Proof. induction h as [|[]]; intros; cbn [app calls]; [reflexivity|f_equal; auto|auto]. Qed.
Lemma calls_in : forall h i op, In (i, op) (calls h) <-> exists t, In (Call i t op) h.
Proof.
  induction h as [|[i t o|i t r] h IH]; intros j op; cbn [calls In].
  - split; [tauto|intros (t & [])].
  - rewrite IH. split; [intros [E|(u & H)]; [injection E as -> ->; exists t; auto|exists u; auto]|].
    intros (u & [E|H]); [injection E as -> -> ->; auto|right; exists u; auto].
  - rewrite IH. split; intros (u & H); exists u; [auto|]. destruct H as [H|H]; [discriminate|exact H].
Qed.
Record CInv (s : state) : Prop := {
  c_nodup : NoDup (map fst (calls (history s)));
  c_ids : forall i op, In (i, op) (calls (history s)) -> (i < next_id s)%nat;
  c_pending : forall i t op, In (Call i t op) (history s) -> (exists r, In (Return i t r) (history s)) \/ exists p, threads s t = Busy i p
}.
Lemma CInv_init : forall v0, CInv (init v0).
Proof. intros v0. constructor; cbn; [constructor|tauto|tauto]. Qed.
Lemma CInv_step : forall s c, CInv s -> CInv (step w s c).
Proof.
  intros s c [N I P]. destruct c as [t op|t|t]; cbn [step].
  - destruct (threads s t) as [|id p] eqn:Et; [|constructor; auto]. constructor; cbn [history next_id threads].
    + rewrite calls_app, map_app. cbn [calls map fst]. apply NoDup_snoc; [exact N|]. intros F. apply in_map_iff in F as ((i & o) & E & F). cbn in E. subst i.
      specialize (I _ _ F). lia.
    + intros i o H. rewrite calls_app, in_app_iff in H. cbn in H. destruct H as [H|[H|[]]]; [specialize (I _ _ H); lia|injection H as <- <-; lia].
    + intros i u o H. apply in_app_or in H as [H|[H|[]]].
      * destruct (P i u o H) as [(r & R)|(p & R)]; [left; exists r; apply in_or_app; auto|].
        right. exists p. rewrite set_other; [exact R|]. intros ->. congruence.
      * injection H as <- <- <-. right. exists (start w op). apply set_same.
  - destruct (threads s t) as [|id p] eqn:Et; [constructor; auto|]. destruct (instr w (counter s) p) as [m p']. constructor; cbn [history next_id threads]; auto.
    intros i u o H. destruct (P i u o H) as [R|(q & R)]; [auto|]. right. destruct (Nat.eq_dec u t) as [->|NE]; [rewrite set_same; exists p'; congruence|rewrite set_other by assumption; eauto].
  - destruct (threads s t) as [|id p] eqn:Et; [constructor; auto|]. destruct p; try (constructor; auto; fail). constructor; cbn [history next_id threads].
    + rewrite calls_app. cbn [calls]. rewrite app_nil_r. exact N.
    + intros i o H. rewrite calls_app in H. cbn [calls] in H. rewrite app_nil_r in H. eauto.
    + intros i u o H. apply in_app_or in H as [H|[H|[]]]; [|discriminate].
      destruct (P i u o H) as [(x & R)|(q & R)]; [left; exists x; apply in_or_app; auto|].
      destruct (Nat.eq_dec u t) as [->|NE]; [|right; rewrite set_other by assumption; eauto].
      left. exists r. apply in_or_app. right. left. congruence.
Qed.
Lemma CInv_run : forall sched s, CInv s -> CInv (run w s sched).
Proof. induction sched as [|c sched IH]; intros s C; [exact C|]. unfold run. cbn [fold_left]. apply IH. now apply CInv_step. Qed.

(** When all calls have returned, the linearized operations are the calls. *)
Lemma all_linearized : forall v0 s l, GInv v0 s l -> CInv s -> (forall t, threads s t = Idle) ->
  Permutation (map (fun d => (d_id d, d_op d)) l) (calls (history s)).
Proof.
  intros v0 s l G C ID. destruct (g_lin _ _ _ G) as [SEQ ONCE CALLED RET ORD]. destruct C as [N I P]. apply NoDup_Permutation.
  - apply (NoDup_map_inv fst). rewrite map_map. cbn [fst]. exact ONCE.
  - now apply (NoDup_map_inv fst).
  - intros (i & op). rewrite calls_in. split.
    + intros H. apply in_map_iff in H as (d & E & H). injection E as <- <-. exact (CALLED d H).
    + intros (t & H). destruct (P i t op H) as [(r & R)|(p & R)]; [|rewrite ID in R; discriminate].
      destruct (RET i t r R) as (o & H' & D). assert (o = op).
      { assert (A1 : In (i, op) (calls (history s))) by (apply calls_in; eauto). assert (A2 : In (i, o) (calls (history s))) by (apply calls_in; eauto).
        clear - N A1 A2. induction (calls (history s)) as [|[j x] k IH]; [contradiction|]. inversion N as [|? ? M N']. subst. cbn [map fst] in *.
        destruct A1 as [A1|A1], A2 as [A2|A2]; [congruence| | |auto].
        - injection A1 as -> ->. exfalso. apply M. apply in_map_iff. exists (i, o). auto.
        - injection A2 as -> ->. exfalso. apply M. apply in_map_iff. exists (i, op). auto. }
      subst o. apply in_map_iff. exists (mkDone i op r). auto.
Qed.

Lemma calls_ops : forall h, map snd (calls h) = called_ops h.
Proof. induction h as [|[]]; cbn; [reflexivity|f_equal; auto|auto]. Qed.
Lemma sum_perm : forall l k, Permutation l k -> sum_amounts l = sum_amounts k.
Proof. intros l k H. induction H; cbn [sum_amounts]; lia. Qed.
Lemma sequential_sum : forall s l s', sequential w s l s' -> (forall d, In d l -> amount (d_op d) <> None) ->
  word w s' = word w (s + sum_amounts (map d_op l)).
Proof.
  intros s l s' H. induction H as [s|s id op l s' H IH]; intros A; [cbn; f_equal; lia|].
  rewrite IH by (intros d Hd; apply A; now right). specialize (A _ (or_introl eq_refl)). cbn [map d_op sum_amounts] in *.
  assert (E : word w (fst (seq_op w s op)) = word w (s + (match amount op with Some v => v | None => 0 end))).
  { unfold word. destruct op; cbn [amount seq_op fst] in *; try congruence; unfold word; rewrite ?Z.mod_mod by exact pow_pos; f_equal; lia. }
  unfold word in *. rewrite <- (Zplus_mod_idemp_l (fst _)), E, Zplus_mod_idemp_l. f_equal. lia.
Qed.

(** The counter and every operand stay words. *)
Lemma word_word : forall v, is_word w (word w v).
Proof. intros v. unfold is_word, word. apply Z.mod_pos_bound. apply Z.pow_pos_nonneg; lia. Qed.
Lemma bits_word : forall v, is_word w v <-> 0 <= v /\ v = v mod 2 ^ w.
Proof. intros v. unfold is_word. split; [intros H; split; [lia|symmetry; now apply Z.mod_small]|]. intros [H E]. rewrite E. apply Z.mod_pos_bound. apply Z.pow_pos_nonneg; lia. Qed.
Lemma bit_word : forall b x y, is_word w x -> is_word w y -> is_word w (bit_fn b x y).
Proof.
  intros b x y X Y. assert (H : forall z, 0 <= z -> (forall n, w <= n -> Z.testbit z n = false) -> is_word w z).
  { intros z Z0 T. apply bits_word. split; [exact Z0|]. apply Z.bits_inj'. intros n Hn. destruct (Z.lt_ge_cases n w); [now rewrite Z.mod_pow2_bits_low|rewrite Z.mod_pow2_bits_high by lia; auto]. }
  assert (T : forall z, is_word w z -> forall n, w <= n -> Z.testbit z n = false).
  { intros z Hz n Hn. apply bits_word in Hz as [_ ->]. apply Z.mod_pow2_bits_high. lia. }
  unfold is_word in X, Y. apply H.
  - destruct b; cbn [bit_fn]; [apply Z.lor_nonneg|apply Z.land_nonneg|apply Z.lxor_nonneg]; lia.
  - intros n Hn. destruct b; cbn [bit_fn]; rewrite ?Z.lor_spec, ?Z.land_spec, ?Z.lxor_spec, (T x X n Hn), (T y Y n Hn); reflexivity.
Qed.
Lemma seq_op_word : forall s op, is_word w s -> op_ok w op -> is_word w (fst (seq_op w s op)).
Proof.
  intros s op S O. destruct op; cbn [seq_op fst op_ok] in *; auto using word_word;
    try apply (bit_word BOr); try apply (bit_word BAnd); try apply (bit_word BXor); auto.
  destruct (s =? expected); cbn; tauto.
Qed.

(** A thread left alone finishes its operation in two instructions. *)
Lemma alone : forall s t id p, threads s t = Busy id p ->
  exists r, threads (run w s [CStep t; CStep t]) t = Busy id (IRet r).
Proof.
  intros s t id p E. unfold run. cbn [fold_left step]. rewrite E.
  destruct p; cbn [instr]; try (destruct (counter s =? _) eqn:C); cbn [step threads counter]; rewrite ?set_same; cbn [instr]; cbn [threads];
    rewrite ?Z.eqb_refl; cbn [threads]; rewrite ?set_same; eauto.
Qed.
End P.
