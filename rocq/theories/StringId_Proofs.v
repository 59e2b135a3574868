From Coq Require Import List Arith NArith Bool Lia Permutation.
From Verif Require Import Common CommonFacts HashTable_Model HashTable_Proofs StringId_Spec StringId_Model.
Import ListNotations.

Section proofs.
Context {A : Type}.
Variable eq_dec : forall a b : A, {a = b} + {a <> b}.
Variable eqb : A -> A -> bool.
Variable shash : A -> N.
Variable empty : A.
Hypothesis Eqb : forall a b, eqb a b = true <-> a = b.

(** The table entries of the known strings, numbered from [n]. *)
Fixpoint entries (n : nat) (known : list A) : list (A * N) :=
  match known with [] => [] | s :: r => (s, N.of_nat n) :: entries (S n) r end.

Lemma entries_snoc : forall known n s, entries n (known ++ [s]) = entries n known ++ [(s, N.of_nat (n + length known))].
Proof.
  induction known as [|x r IH]; intros n s; cbn; [now rewrite Nat.add_0_r|]. rewrite IH. now rewrite Nat.add_succ_r.
Qed.
Lemma in_entries : forall known n s id, In (s, id) (entries n known) <-> exists i, nth_error known i = Some s /\ id = N.of_nat (n + i).
Proof.
  induction known as [|x r IH]; intros n s id; cbn; split.
  - intros [].
  - intros ([|i] & H & _); discriminate.
  - intros [H|H]; [injection H as -> <-; exists 0; rewrite Nat.add_0_r; auto|].
    apply IH in H as (i & H & ->). exists (S i). rewrite Nat.add_succ_r. auto.
  - intros ([|i] & H & ->); cbn in H; [left; rewrite Nat.add_0_r; congruence|].
    right. apply IH. exists i. rewrite Nat.add_succ_r. auto.
Qed.
Lemma position_spec : forall s known, match position eq_dec s known with
  | Some i => nth_error known i = Some s
  | None => ~ In s known
  end.
Proof.
  induction known as [|x r IH]; cbn [position]; [intros []|]. destruct (eq_dec s x) as [->|N]; [reflexivity|].
  destruct (position eq_dec s r); cbn; [exact IH|]. intros [->|H]; auto.
Qed.
Lemma nodup_nth : forall (l : list A) i j s, NoDup l -> nth_error l i = Some s -> nth_error l j = Some s -> i = j.
Proof.
  intros l i j s N Hi Hj. rewrite NoDup_nth_error in N. apply N; [now apply nth_error_lt in Hi|congruence].
Qed.

Definition Rel (t : sid A) (known : list A) : Prop :=
  NoDup known /\ nextid t = N.of_nat (length known + 1)
  /\ tcl_num (idmap t) = 2 /\ tcl_den (idmap t) = 1 /\ tcl_num (revmap t) = 4 /\ tcl_den (revmap t) = 1
  /\ length (chains (idmap t)) <= length known /\ length (chains (revmap t)) <= length known
  /\ (exists l, Live (hash_str shash) (idmap t) l /\ Permutation (map snd l) (entries 1 known))
  /\ (exists l, Live (@hash_id A) (revmap t) l /\ Permutation (map snd l) (entries 1 known)).

Lemma deref_of : forall h (t : ht (A * N)) l i d, Live h t l -> In (i, d) l -> deref t i = Ok d.
Proof. intros h t l i d L H. unfold deref. destruct (Live_get h t l i d L H) as (n & E). now rewrite (get_Some _ _ _ E). Qed.

Lemma add_rel : forall h (t : ht (A * N)) l known d, Live h t l -> Permutation (map snd l) (entries 1 known) ->
  length (chains t) <= length known -> (N.of_nat (length known) * N.of_nat (tcl_den t) < N.of_nat (tcl_num t) * max_prime)%N ->
  exists t' i l', ht_add h t d = Ok (t', i) /\ Live h t' l' /\ Permutation (map snd l') (entries 1 known ++ [d])
    /\ length (chains t') <= S (length known) /\ tcl_num t' = tcl_num t /\ tcl_den t' = tcl_den t.
Proof.
  intros h t l known d L P Len Room. unfold ht_add.
  destruct (internalAdd_spec h t l d L) as [(t' & l' & i & E & L' & P' & Hlen & Hpos & Hn & Hd)|(E & F)].
  - exists t', i, l'. split; [exact E|]. split; [exact L'|]. split; [|split; [lia|auto]].
    rewrite P'. cbn. rewrite P. apply Permutation_cons_append.
  - exfalso. unfold table_full in F.
    assert (N.of_nat (length (chains t)) * N.of_nat (tcl_den t) <= N.of_nat (length known) * N.of_nat (tcl_den t))%N by (apply N.mul_le_mono_r; lia). lia.
Qed.

Lemma new_rel : exists t, sid_new = Ok t /\ Rel t [].
Proof.
  destruct (ht_new_spec (hash_str shash) 2 1 ltac:(lia) ltac:(lia)) as [E1 L1].
  destruct (ht_new_spec (@hash_id A) 4 1 ltac:(lia) ltac:(lia)) as [E2 L2].
  eexists. split; [reflexivity|]. unfold Rel. cbn. repeat split; auto; try constructor.
  - exists []. split; [exact L1|constructor].
  - exists []. split; [exact L2|constructor].
Qed.

Lemma step_rel : forall t known o, Rel t known -> (N.of_nat (length known) < 2 * max_prime)%N ->
  match spec_step eq_dec known o with
  | Ok (known', a) => exists t', sid_step eqb shash empty t o = Ok (t', a) /\ Rel t' known'
  | Abort => sid_step eqb shash empty t o = Abort
  | _ => False
  end.
Proof.
  intros t known o (ND & Nx & T1 & T2 & T3 & T4 & C1 & C2 & (l1 & L1 & P1) & (l2 & L2 & P2)) Room.
  destruct o as [s|id|]; cbn [spec_step sid_step].
  - (* getId *)
    pose proof (position_spec s known) as Pos. unfold getId.
    assert (EH : eq_hash (hash_str shash) (equal_str eqb)) by (intros [a ?] [b ?] H; unfold equal_str, hash_str in *; cbn in *; apply Eqb in H; congruence).
    destruct (ht_lookup_live (hash_str shash) (equal_str eqb) (idmap t) l1 (s, 0%N) EH L1) as [(i & d & E & Hi & Eq)|(E & Hn)]; rewrite E; cbn [bind].
    + rewrite (deref_of _ _ _ _ _ L1 Hi). cbn [bind]. destruct d as [s' id]. unfold equal_str in Eq. cbn in Eq. apply Eqb in Eq as <-.
      assert (I : In (s, id) (entries 1 known)) by (eapply Permutation_in; [exact P1|]; apply (in_map snd) in Hi; exact Hi).
      apply in_entries in I as (k & Hk & ->). destruct (position eq_dec s known) as [j|]; [|exfalso; apply Pos; eapply nth_error_In; eauto].
      assert (j = k) as -> by (eapply nodup_nth; eauto). exists t. split; [|].
      * cbn. do 3 f_equal. lia.
      * unfold Rel. repeat (split; [assumption|]). eauto 8.
    + assert (NI : ~ In s known).
      { intros H. apply In_nth_error in H as (k & Hk). assert (I : In (s, N.of_nat (1 + k)) (entries 1 known)) by (apply in_entries; eauto).
        apply (Permutation_in _ (Permutation_sym P1)) in I. apply in_map_iff in I as ([i d] & Hd & I). cbn in Hd. subst d. apply Hn in I.
        unfold equal_str in I. cbn in I. assert (eqb s s = true) by now apply Eqb. congruence. }
      destruct (position eq_dec s known) as [j|]; [exfalso; apply NI; eapply nth_error_In; eauto|].
      destruct (add_rel (hash_str shash) (idmap t) l1 known (s, nextid t) L1 P1 C1) as (m & i1 & l1' & A1 & L1' & P1' & C1' & N1 & D1).
      { rewrite T1, T2. lia. }
      destruct (add_rel (@hash_id A) (revmap t) l2 known (s, nextid t) L2 P2 C2) as (r & i2 & l2' & A2 & L2' & P2' & C2' & N2 & D2).
      { rewrite T3, T4. lia. }
      rewrite A1. cbn [bind]. rewrite A2. cbn [bind]. eexists. split; [rewrite Nx; reflexivity|]. unfold Rel. cbn [idmap revmap nextid].
      rewrite app_length. cbn [length]. rewrite Nx in P1', P2'.
      split.
      { apply (Permutation_NoDup (Permutation_cons_append known s)). now constructor. }
      split; [lia|]. repeat (split; [congruence || lia|]). rewrite !entries_snoc.
      replace (1 + length known) with (length known + 1) by lia. split; eauto.
  - (* getString *)
    unfold getString.
    assert (EH : eq_hash (@hash_id A) (@equal_id A)) by (intros a b H; unfold equal_id, hash_id in *; now apply N.eqb_eq in H).
    destruct (ht_lookup_live (@hash_id A) (@equal_id A) (revmap t) l2 (empty, id) EH L2) as [(i & d & E & Hi & Eq)|(E & Hn)]; rewrite E; cbn [bind].
    + rewrite (deref_of _ _ _ _ _ L2 Hi). cbn [bind]. destruct d as [s id']. unfold equal_id in Eq. cbn in Eq. apply N.eqb_eq in Eq as <-.
      assert (I : In (s, id) (entries 1 known)) by (eapply Permutation_in; [exact P2|]; apply (in_map snd) in Hi; exact Hi).
      apply in_entries in I as (k & Hk & ->). destruct (N.of_nat (1 + k)) eqn:Z; [lia|]. rewrite <- Z, Nat2N.id.
      replace (1 + k - 1) with k by lia. rewrite Hk. exists t. split; [reflexivity|]. unfold Rel. repeat (split; [assumption|]). eauto 8.
    + destruct id as [|p]; [reflexivity|]. destruct (nth_error known (N.to_nat (N.pos p) - 1)) as [s|] eqn:F; [|reflexivity]. exfalso.
      assert (I : In (s, N.pos p) (entries 1 known)).
      { apply in_entries. exists (N.to_nat (N.pos p) - 1). split; [exact F|]. lia. }
      apply (Permutation_in _ (Permutation_sym P2)) in I. apply in_map_iff in I as ([i d] & Hd & I). cbn in Hd. subst d. apply Hn in I.
      unfold equal_id in I. cbn in I. now rewrite Pos.eqb_refl in I.
  - exists t. split; [unfold maxId; now rewrite Nx|]. unfold Rel. repeat (split; [assumption|]). eauto 8.
Qed.

Lemma known_grows : forall known o known' a, spec_step eq_dec known o = Ok (known', a) -> length known' <= S (length known).
Proof.
  intros known [s|id|] known' a; cbn.
  - destruct (position eq_dec s known); intros H; injection H as <- _; rewrite ?app_length; cbn; lia.
  - destruct id; [discriminate|]. destruct (nth_error known _); [|discriminate]. intros H. injection H as <- _. lia.
  - intros H. injection H as <- _. lia.
Qed.
Lemma run_rel : forall ops t known, Rel t known -> (N.of_nat (length known + length ops) <= 2 * max_prime)%N ->
  run_ops (sid_step eqb shash empty) t ops = run_ops (spec_step eq_dec) known ops.
Proof.
  induction ops as [|o ops IH]; intros t known R Room; [reflexivity|]. cbn [run_ops length] in *.
  pose proof (step_rel t known o R ltac:(lia)) as S. destruct (spec_step eq_dec known o) as [[known' a]| | |] eqn:E; try contradiction.
  - destruct S as (t' & -> & R'). f_equal. apply IH; [exact R'|]. apply known_grows in E. lia.
  - now rewrite S.
Qed.

(** The specification itself: what the outputs of a run say about one fixed
    numbering of distinct strings. *)
Lemma spec_numbering : forall ops known, NoDup known -> exists final, (exists more, final = known ++ more) /\ NoDup final /\
  forall i o a, nth_error ops i = Some o -> nth_error (run_ops (spec_step eq_dec) known ops) i = Some (Ok a) ->
  match o, a with
  | GetId s, Id n => (0 < n)%N /\ nth_error final (N.to_nat n - 1) = Some s
  | GetString n, Str s => (0 < n)%N /\ nth_error final (N.to_nat n - 1) = Some s
  | MaxId, Id _ => True
  | _, _ => False
  end.
Proof.
  induction ops as [|o ops IH]; intros known ND; cbn [run_ops].
  - exists known. split; [exists []; now rewrite app_nil_r|]. split; [exact ND|]. intros [|i] o a; discriminate.
  - destruct (spec_step eq_dec known o) as [[known' b]| | |] eqn:E.
    + assert (K : NoDup known' /\ (exists more, known' = known ++ more) /\
        match o, b with
        | GetId s, Id n => (0 < n)%N /\ nth_error known' (N.to_nat n - 1) = Some s
        | GetString n, Str s => (0 < n)%N /\ nth_error known' (N.to_nat n - 1) = Some s
        | MaxId, Id _ => True
        | _, _ => False
        end).
      { destruct o as [s|id|]; cbn in E.
        - pose proof (position_spec s known) as P. destruct (position eq_dec s known) as [j|]; injection E as <- <-.
          + split; [exact ND|]. split; [exists []; now rewrite app_nil_r|]. split; [lia|]. rewrite Nat2N.id. now replace (j + 1 - 1) with j by lia.
          + split; [apply (Permutation_NoDup (Permutation_cons_append known s)); now constructor|]. split; [eauto|]. split; [lia|].
            rewrite Nat2N.id. replace (length known + 1 - 1) with (length known) by lia. rewrite nth_error_app2 by lia. now rewrite Nat.sub_diag.
        - destruct id as [|p]; [discriminate|]. destruct (nth_error known (N.to_nat (N.pos p) - 1)) as [s|] eqn:F; [|discriminate].
          injection E as <- <-. split; [exact ND|]. split; [exists []; now rewrite app_nil_r|]. split; [lia|]. exact F.
        - injection E as <- <-. split; [exact ND|]. split; [exists []; now rewrite app_nil_r|exact I]. }
      destruct K as (ND' & (m & Em) & K). destruct (IH known' ND') as (final & (more & Ef) & NDf & H). exists final.
      split; [exists (m ++ more); rewrite Ef, Em; now rewrite app_assoc|]. split; [exact NDf|].
      intros [|i] o' a Ho Ha; cbn [nth_error] in Ho, Ha; [|now apply H with i].
      injection Ho as <-. injection Ha as <-. destruct o, b; try exact K; destruct K as [K1 K2]; (split; [exact K1|]);
      rewrite Ef; rewrite nth_error_app1; auto; now apply nth_error_lt in K2.
    + exists known. split; [exists []; now rewrite app_nil_r|]. split; [exact ND|]. intros [|[|i]] o' a _ Ha; discriminate.
    + exists known. split; [exists []; now rewrite app_nil_r|]. split; [exact ND|]. intros [|[|i]] o' a _ Ha; discriminate.
    + exists known. split; [exists []; now rewrite app_nil_r|]. split; [exact ND|]. intros [|[|i]] o' a _ Ha; discriminate.
Qed.
End proofs.
