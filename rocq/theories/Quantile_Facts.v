(** Sorting, counting and binomial facts used for StatsQuantile. *)
From Coq Require Import List Arith ZArith Lia Bool Permutation Sorted ZifyBool ZifyNat.
From Verif Require Import Common CommonFacts ListFacts Quantile_Model.
Import ListNotations.

(** ** isort *)
Lemma insert_perm x l : Permutation (insert x l) (x :: l).
Proof. induction l as [|y l IH]; simpl; auto. destruct (Z.leb x y); auto. rewrite IH. apply perm_swap. Qed.
Lemma isort_perm l : Permutation (isort l) l.
Proof. induction l as [|x l IH]; simpl; auto. rewrite insert_perm. now constructor. Qed.
Lemma insert_sorted x l : StronglySorted Z.le l -> StronglySorted Z.le (insert x l).
Proof.
  induction l as [|y l IH]; intros H; simpl. { repeat constructor. }
  inversion H as [|? ? H1 H2]; subst. destruct (Z.leb x y) eqn:E.
  - constructor; auto. constructor; [lia|]. eapply Forall_impl; [|exact H2]. simpl; lia.
  - constructor; auto. apply (Permutation_Forall (Permutation_sym (insert_perm x l))). constructor; [lia|exact H2].
Qed.
Lemma isort_sorted l : StronglySorted Z.le (isort l).
Proof. induction l; simpl; [constructor|now apply insert_sorted]. Qed.
Lemma isort_length l : length (isort l) = length l.
Proof. apply Permutation_length, isort_perm. Qed.

Lemma sorted_unique l1 : forall l2, Permutation l1 l2 -> StronglySorted Z.le l1 -> StronglySorted Z.le l2 -> l1 = l2.
Proof.
  induction l1 as [|x l1 IH]; intros l2 P S1 S2.
  - apply Permutation_nil in P. now subst.
  - destruct l2 as [|y l2]. { now apply Permutation_sym, Permutation_nil in P. }
    inversion S1 as [|? ? A1 A2]; inversion S2 as [|? ? B1 B2]; subst. rewrite Forall_forall in A2, B2.
    assert (x = y). { assert (In x (y :: l2)) by (apply (Permutation_in _ P); now left).
      assert (In y (x :: l1)) by (apply (Permutation_in _ (Permutation_sym P)); now left).
      destruct H as [->|H]; auto. destruct H0 as [->|H0]; auto. specialize (A2 _ H0). specialize (B2 _ H). lia. }
    subst y. f_equal. apply IH; auto. now apply Permutation_cons_inv with x.
Qed.
Lemma isort_sorted_id l : StronglySorted Z.le l -> isort l = l.
Proof. intros H. apply sorted_unique; auto. apply isort_perm. apply isort_sorted. Qed.
Lemma isort_unique l s : Permutation l s -> StronglySorted Z.le s -> isort l = s.
Proof. intros P H. apply sorted_unique; auto. now rewrite isort_perm. apply isort_sorted. Qed.

Lemma ssorted_app l1 l2 : StronglySorted Z.le l1 -> StronglySorted Z.le l2 ->
  (forall x y, In x l1 -> In y l2 -> (x <= y)%Z) -> StronglySorted Z.le (l1 ++ l2).
Proof. induction 1 as [|x l1 H1 IH F]; simpl; intros H2 H; auto. constructor; [apply IH; auto|].
  apply Forall_app. split; auto. apply Forall_forall. intros y Hy. apply H; auto. Qed.
Lemma ssorted_app_l l1 l2 : StronglySorted Z.le (l1 ++ l2) -> StronglySorted Z.le l1.
Proof. induction l1 as [|x l1 IH]; simpl; intros H; [constructor|]. inversion H; subst. constructor; auto. now apply Forall_app in H3. Qed.
Lemma ssorted_app_r l1 l2 : StronglySorted Z.le (l1 ++ l2) -> StronglySorted Z.le l2.
Proof. induction l1 as [|x l1 IH]; simpl; intros H; auto. inversion H; auto. Qed.
Lemma ssorted_repeat v n : StronglySorted Z.le (repeat v n).
Proof. induction n; simpl; constructor; auto. apply Forall_forall. intros y Hy. apply repeat_spec in Hy. lia. Qed.
Lemma ssorted_skipn l n : StronglySorted Z.le l -> StronglySorted Z.le (skipn n l).
Proof. intros H. rewrite <- (firstn_skipn n l) in H. now apply ssorted_app_r in H. Qed.
Lemma ssorted_firstn l n : StronglySorted Z.le l -> StronglySorted Z.le (firstn n l).
Proof. intros H. rewrite <- (firstn_skipn n l) in H. now apply ssorted_app_l in H. Qed.

(** ** Counting *)
Definition cnt (p : Z -> bool) (l : list Z) : nat := length (filter p l).
Definition down_closed (p : Z -> bool) : Prop := forall x y, p y = true -> (x <= y)%Z -> p x = true.

Lemma cnt_nil p : cnt p [] = 0. Proof. reflexivity. Qed.
Lemma cnt_cons p x l : cnt p (x :: l) = (if p x then 1 else 0) + cnt p l.
Proof. unfold cnt; simpl. destruct (p x); reflexivity. Qed.
Lemma cnt_app p l1 l2 : cnt p (l1 ++ l2) = cnt p l1 + cnt p l2.
Proof. unfold cnt. now rewrite filter_app, app_length. Qed.
Lemma cnt_le_length p l : cnt p l <= length l.
Proof. induction l as [|x l IH]; [auto|]. rewrite cnt_cons. simpl. destruct (p x); lia. Qed.
Lemma cnt_perm p l1 l2 : Permutation l1 l2 -> cnt p l1 = cnt p l2.
Proof. induction 1; rewrite ?cnt_cons; try lia. Qed.
Lemma cnt_repeat p v n : cnt p (repeat v n) = if p v then n else 0.
Proof. induction n as [|n IH]; simpl; [now destruct (p v)|]. rewrite cnt_cons, IH. destruct (p v); lia. Qed.
Lemma cnt_ext p q l : (forall x, In x l -> p x = q x) -> cnt p l = cnt q l.
Proof. induction l as [|x l IH]; intros H; auto. rewrite !cnt_cons, (H x) by (simpl; auto). rewrite IH; auto. intros; apply H; simpl; auto. Qed.
Lemma cnt_mono p q l : (forall x, In x l -> p x = true -> q x = true) -> cnt p l <= cnt q l.
Proof. induction l as [|x l IH]; intros H; auto. rewrite !cnt_cons. specialize (H x) as H0.
  assert (cnt p l <= cnt q l) by (apply IH; intros; apply H; simpl; auto).
  destruct (p x); [rewrite H0 by (simpl; auto); lia|destruct (q x); lia]. Qed.
Lemma cnt_all p l : (forall x, In x l -> p x = true) -> cnt p l = length l.
Proof. induction l as [|x l IH]; intros H; auto. rewrite cnt_cons, (H x) by (simpl; auto). rewrite IH; auto. intros; apply H; simpl; auto. Qed.
Lemma cnt_none p l : (forall x, In x l -> p x = false) -> cnt p l = 0.
Proof. induction l as [|x l IH]; intros H; auto. rewrite cnt_cons, (H x) by (simpl; auto). rewrite IH; auto. intros; apply H; simpl; auto. Qed.
Lemma cnt_pos p l x : In x l -> p x = true -> 0 < cnt p l.
Proof. induction l as [|y l IH]; simpl; [tauto|]. rewrite cnt_cons. intros [->|H] E; [rewrite E; lia|]. specialize (IH H E). lia. Qed.
Lemma cnt_true l : cnt (fun _ => true) l = length l.
Proof. now apply cnt_all. Qed.
Lemma cnt_false l : cnt (fun _ => false) l = 0.
Proof. now apply cnt_none. Qed.

(** In a sorted list a down-closed predicate holds on a prefix. *)
Lemma cnt_prefix p l : down_closed p -> StronglySorted Z.le l ->
  (forall x, In x (firstn (cnt p l) l) -> p x = true) /\ (forall x, In x (skipn (cnt p l) l) -> p x = false).
Proof.
  intros D S. induction S as [|x l S IH F]; [now split|]. destruct IH as [I1 I2]. rewrite cnt_cons.
  destruct (p x) eqn:E; cbn [Nat.add firstn skipn].
  - split; auto. intros y [<-|H]; auto.
  - assert (Z0 : cnt p l = 0). { apply cnt_none. intros y Hy. rewrite Forall_forall in F. specialize (F y Hy).
      destruct (p y) eqn:E2; auto. rewrite (D x y) in E; auto; lia. }
    rewrite Z0 in *. simpl. split; [tauto|]. intros y [<-|H]; auto.
Qed.

Lemma cnt_nth p l i v : down_closed p -> StronglySorted Z.le l -> nth_error l i = Some v -> (p v = true <-> i < cnt p l).
Proof.
  intros D S N. destruct (cnt_prefix p l D S) as [P1 P2]. split; intros H.
  - destruct (Nat.lt_ge_cases i (cnt p l)); auto. rewrite P2 in H; [discriminate|].
    apply nth_error_In with (i - cnt p l). rewrite nth_error_skipn. replace (cnt p l + (i - cnt p l)) with i by lia. exact N.
  - apply P1. apply nth_error_In with i. now rewrite nth_error_firstn_lt.
Qed.

Definition lt_p (v : Z) : Z -> bool := fun x => Z.ltb x v.
Definition le_p (v : Z) : Z -> bool := fun x => Z.leb x v.
Lemma lt_p_down v : down_closed (lt_p v). Proof. unfold lt_p. intros x y; lia. Qed.
Lemma le_p_down v : down_closed (le_p v). Proof. unfold le_p. intros x y; lia. Qed.

(** The element at position t of a sorted list, by counting. *)
Lemma nth_by_count l t v : StronglySorted Z.le l -> cnt (lt_p v) l <= t < cnt (le_p v) l -> nth_error l t = Some v.
Proof.
  intros S [H1 H2]. destruct (nth_error l t) as [x|] eqn:E.
  - pose proof (cnt_nth (lt_p v) l t x (lt_p_down v) S E) as A. pose proof (cnt_nth (le_p v) l t x (le_p_down v) S E) as B.
    unfold lt_p, le_p in *. f_equal. lia.
  - apply nth_error_None in E. pose proof (cnt_le_length (le_p v) l). lia.
Qed.
Lemma count_by_nth l t v : StronglySorted Z.le l -> nth_error l t = Some v -> cnt (lt_p v) l <= t < cnt (le_p v) l.
Proof.
  intros S E. pose proof (cnt_nth (lt_p v) l t v (lt_p_down v) S E) as A. pose proof (cnt_nth (le_p v) l t v (le_p_down v) S E) as B.
  unfold lt_p at 1 in A. unfold le_p at 1 in B. lia.
Qed.

(** ** Repetition *)
Definition stretch (w : nat) (l : list Z) : list Z := flat_map (fun v => repeat v w) l.
Lemma stretch_cons w v l : stretch w (v :: l) = repeat v w ++ stretch w l. Proof. reflexivity. Qed.
Lemma stretch_length w l : length (stretch w l) = w * length l.
Proof. induction l as [|v l IH]; cbn [length]; [simpl; lia|]. rewrite stretch_cons, app_length, repeat_length, IH. lia. Qed.
Lemma cnt_stretch p w l : cnt p (stretch w l) = w * cnt p l.
Proof. induction l as [|v l IH]; [cbn; lia|]. rewrite stretch_cons, cnt_app, cnt_repeat, cnt_cons, IH. destruct (p v); lia. Qed.
Lemma stretch_perm w l1 l2 : Permutation l1 l2 -> Permutation (stretch w l1) (stretch w l2).
Proof. apply Permutation_flat_map. Qed.
Lemma stretch_in w l x : In x (stretch w l) -> In x l.
Proof. unfold stretch. rewrite in_flat_map. intros (y & H & E). apply repeat_spec in E. now subst. Qed.
Lemma stretch_1 l : stretch 1 l = l.
Proof. induction l as [|v l IH]; auto. rewrite stretch_cons, IH. reflexivity. Qed.

(** Every W-th element from offset o. *)
Fixpoint pick (T : list Z) (W o n : nat) : list Z :=
  match n with O => [] | S n => nth o T 0%Z :: pick T W (o + W) n end.
Lemma pick_length T W o n : length (pick T W o n) = n.
Proof. revert o; induction n; simpl; auto. Qed.
Lemma pick_shift T1 T2 W n : forall o, length T1 <= o -> pick (T1 ++ T2) W o n = pick T2 W (o - length T1) n.
Proof. induction n as [|n IH]; intros o H; simpl; auto. rewrite app_nth2 by lia. rewrite IH by lia.
  do 2 f_equal. lia. Qed.
Lemma pick_in T W o n x : In x (pick T W o n) -> o + (n - 1) * W < length T -> In x T.
Proof. revert o; induction n as [|n IH]; intros o; simpl; [tauto|]. intros [<-|H] L.
  - apply nth_In. lia.
  - destruct n as [|n]; [destruct H|]. apply (IH (o + W)); auto. simpl in *. lia. Qed.
Lemma pick_sorted T W n : StronglySorted Z.le T -> forall o, o + (n - 1) * W < length T -> StronglySorted Z.le (pick T W o n).
Proof.
  intros S. induction n as [|n IH]; intros o L; simpl; [constructor|].
  assert (L' : n = 0 \/ o + W + (n - 1) * W < length T) by (destruct n; [auto|right; simpl in *; lia]).
  constructor.
  - destruct L' as [->|L']; [constructor|]. now apply IH.
  - apply Forall_forall. intros x Hx. assert (F : forall m o2, o <= o2 -> o2 + (m - 1) * W < length T -> In x (pick T W o2 m) -> (nth o T 0 <= x)%Z).
    { clear - S. induction m as [|m IHm]; intros o2 H1 H2; simpl; [tauto|]. intros [<-|H].
      - rewrite <- (firstn_skipn o T) in S. destruct (Nat.eq_dec o o2) as [->|N]; [lia|].
        assert (Hs : o < length T) by lia.
        assert (E : skipn o T = nth o T 0%Z :: skipn (Datatypes.S o) T).
        { clear - Hs. revert o Hs. induction T as [|t T IH]; intros [|o] H; simpl in *; try lia; auto. rewrite (IH o) by lia. reflexivity. }
        apply ssorted_app_r in S. rewrite E in S. inversion S as [|? ? S1 S2]; subst. rewrite Forall_forall in S2. apply S2.
        assert (E2 : nth o2 T 0%Z = nth (o2 - Datatypes.S o) (skipn (Datatypes.S o) T) 0%Z).
        { rewrite <- (firstn_skipn (Datatypes.S o) T) at 1. rewrite app_nth2; rewrite firstn_length; [f_equal; lia|lia]. }
        assert (I : In (nth o2 T 0%Z) (skipn (Datatypes.S o) T)) by (rewrite E2; apply nth_In; rewrite skipn_length; lia).
        exact I.
      - destruct m as [|m]; [destruct H|]. apply (IHm (o2 + W)); auto; simpl in *; lia. }
    destruct n as [|n']; [destruct Hx|]. apply (F (Datatypes.S n') (o + W)); auto; simpl in *; lia.
Qed.

(** Counting in the picked list: the c picked elements below the threshold stand
    for c*W elements; the error depends on the offset. *)
Lemma cnt_pick p T W n : down_closed p -> StronglySorted Z.le T -> forall o, o + (n - 1) * W < length T \/ n = 0 ->
  let c := cnt p (pick T W o n) in
  (c = 0 \/ o + (c - 1) * W < cnt p T) /\ (c = n \/ cnt p T <= o + c * W) /\ c <= n.
Proof.
  intros D S. induction n as [|n IH]; intros o L; cbv zeta; cbn [pick]. { simpl. rewrite cnt_nil. auto. }
  destruct L as [L|L]; [|discriminate].
  assert (L' : o + W + (n - 1) * W < length T \/ n = 0) by (destruct n; [auto|left; simpl in *; lia]).
  specialize (IH (o + W) L'). cbv zeta in IH. rewrite cnt_cons.
  assert (E : nth_error T o = Some (nth o T 0%Z)) by (apply nth_error_nth'; lia).
  pose proof (cnt_nth p T o _ D S E) as C. set (c := cnt p (pick T W (o + W) n)) in *.
  destruct (p (nth o T 0%Z)).
  - assert (o < cnt p T) by (apply C; auto). destruct IH as (A & B & K). split; [right|split; [|lia]].
    + replace (1 + c - 1) with c by lia. destruct A as [->|A]; [lia|]. destruct c; [lia|]. simpl in *. lia.
    + destruct B as [->|B]; [left; lia|right]. simpl. lia.
  - assert (cnt p T <= o). { destruct (Nat.lt_ge_cases o (cnt p T)) as [H|H]; auto. apply C in H. discriminate. }
    assert (c = 0). { destruct IH as (A & _ & _). destruct A as [A|A]; auto. lia. }
    rewrite H0. simpl. lia.
Qed.

Lemma collapse_error p T W k o : down_closed p -> StronglySorted Z.le T -> length T = k * W -> 1 <= o <= W ->
  let c := cnt p (pick T W (o - 1) k) in
  cnt p T + 1 <= c * W + o /\ c * W + o <= cnt p T + W.
Proof.
  intros D S L Ho. assert (H : o - 1 + (k - 1) * W < length T \/ k = 0).
  { destruct k as [|k]; [auto|left]. rewrite L. simpl. lia. }
  pose proof (cnt_pick p T W k D S (o - 1) H) as (A & B & K). cbv zeta. set (c := cnt p (pick T W (o - 1) k)) in *.
  pose proof (cnt_le_length p T). split.
  - destruct B as [->|B]; lia.
  - destruct A as [->|A]; [simpl; lia|]. destruct c; [simpl; lia|]. simpl in *. lia.
Qed.

(** ** The number of samples a buffer of level l can stand for when b buffers are
    left: the binomial coefficient (b+l-1 choose l). *)
Fixpoint wt (b l : nat) {struct b} : nat :=
  match b with
  | O => O
  | S b' => (fix go (l : nat) : nat := match l with O => 1 | S l' => wt b' (S l') + go l' end) l
  end.
Lemma wt_0 l : wt 0 l = 0. Proof. reflexivity. Qed.
Lemma wt_S_0 b : wt (S b) 0 = 1. Proof. reflexivity. Qed.
Lemma wt_S_S b l : wt (S b) (S l) = wt b (S l) + wt (S b) l. Proof. reflexivity. Qed.
Lemma wt_1 l : wt 1 l = 1.
Proof. induction l as [|l IH]; [reflexivity|]. now rewrite wt_S_S, wt_0, IH. Qed.
Lemma wt_pos b l : 0 < wt (S b) l.
Proof. induction l as [|l IH]; [rewrite wt_S_0; lia|]. rewrite wt_S_S. lia. Qed.
Lemma wt_mono_l b l l' : l <= l' -> wt b l <= wt b l'.
Proof. destruct b as [|b]; [rewrite !wt_0; lia|]. induction 1 as [|m H IH]; [lia|]. rewrite wt_S_S. lia. Qed.

(** sum of wt m l for m = 1 .. b *)
Fixpoint wsum (b l : nat) : nat := match b with O => 0 | S b' => wt b l + wsum b' l end.
Lemma wsum_wt b l : wsum b l = wt b (S l).
Proof. induction b as [|b IH]; [reflexivity|]. cbn [wsum]. rewrite IH, wt_S_S. lia. Qed.

(** Total of (weight - 1) over the collapses that make a buffer of level l. *)
Fixpoint hid (b l : nat) {struct l} : nat :=
  match l with
  | O => 0
  | S l' => (fix go (m : nat) : nat := match m with O => 0 | S m' => hid m l' + go m' end) b + (wt b l - 1)
  end.
Fixpoint hsum (b l : nat) : nat := match b with O => 0 | S b' => hid b l + hsum b' l end.
Lemma hid_S b l : hid b (S l) = hsum b l + (wt b (S l) - 1).
Proof. cbn [hid]. f_equal. induction b as [|b IH]; [reflexivity|]. cbn [hsum]. now rewrite IH. Qed.
Lemma hid_0 b : hid b 0 = 0. Proof. reflexivity. Qed.
Lemma hid_1 l : hid 1 l = 0.
Proof. induction l as [|l IH]; [reflexivity|]. rewrite hid_S. cbn [hsum]. rewrite IH, wt_1. reflexivity. Qed.

Lemma wt_absorb b l : S l * wt b (S l) = b * wt (S b) l.
Proof.
  revert l. induction b as [|b IH]; intros l; [rewrite wt_0; lia|]. induction l as [|l IHl].
  - rewrite wt_S_S, !wt_S_0. specialize (IH 0). rewrite wt_S_0 in IH. lia.
  - rewrite wt_S_S. specialize (IH (S l)). rewrite (wt_S_S (S b) l). nia.
Qed.

Lemma hid_closed b l : 1 <= b -> hid b (S l) + wt (S b) l = S l * wt b (S l).
Proof.
  intros Hb. revert l. induction b as [|b IH]; [lia|]. intros l. destruct b as [|b].
  { rewrite hid_1, wt_1. clear. induction l as [|l IHl]; [reflexivity|]. rewrite wt_S_S, wt_1. lia. }
  specialize (IH ltac:(lia)). clear Hb.
  assert (Step : forall l, hid (S (S b)) (S l) = hid (S b) (S l) + hid (S (S b)) l + wt (S (S b)) l).
  { intros k. rewrite !hid_S. cbn [hsum]. rewrite (wt_S_S (S b) k). pose proof (wt_pos b (S k)). lia. }
  induction l as [|l IHl].
  - rewrite Step, hid_0, wt_S_0. specialize (IH 0). rewrite !wt_S_0 in *. rewrite (wt_S_S (S b) 0), wt_S_0. lia.
  - rewrite Step. specialize (IH (S l)). rewrite (wt_S_S (S b) (S l)), (wt_S_S (S (S b)) l). lia.
Qed.

(** b * hidden = level * (b-1) * weight *)
Lemma hid_ratio b l : 1 <= b -> b * hid b l = l * (b - 1) * wt b l.
Proof.
  intros Hb. destruct l as [|l]; [rewrite hid_0; lia|].
  pose proof (hid_closed b l Hb) as H. pose proof (wt_absorb b l) as A.
  destruct b as [|b]; [lia|]. replace (S b - 1) with b by lia. nia.
Qed.
