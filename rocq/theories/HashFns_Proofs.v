From Coq Require Import List ZArith Bool Lia ZifyBool ZifyNat Znumtheory.
From Verif Require Import Common CommonFacts ListFacts HashFns_Spec HashFns_Model.
Import ListNotations.
Open Scope Z_scope.

Lemma u32_word : forall x, word (u32 x).
Proof. intros x. unfold word, u32. apply Z.mod_pos_bound. lia. Qed.
Lemma u32_small : forall x, word x -> u32 x = x.
Proof. intros x H. apply Z.mod_small. exact H. Qed.
Lemma land_word : forall x, word x <-> Z.land x (2 ^ 32 - 1) = x.
Proof.
  intros x. change (2 ^ 32 - 1) with (Z.ones 32). rewrite Z.land_ones by lia. unfold word. split; intros H.
  - apply Z.mod_small. exact H.
  - rewrite <- H. apply Z.mod_pos_bound. lia.
Qed.
Lemma lxor_word : forall x y, word x -> word y -> word (Z.lxor x y).
Proof.
  intros x y Hx Hy. apply land_word in Hx. apply land_word in Hy. apply land_word.
  rewrite <- Hx at 2. rewrite <- Hy at 2. apply Z.bits_inj'. intros m _. rewrite !Z.land_spec, !Z.lxor_spec, !Z.land_spec.
  destruct (Z.testbit x m), (Z.testbit y m), (Z.testbit _ m); reflexivity.
Qed.
Lemma shr_word : forall x n, 0 <= n -> word x -> word (shr x n).
Proof.
  intros x n Hn Hx. unfold word, shr in *. rewrite Z.shiftr_div_pow2 by lia.
  assert (0 < 2 ^ n) by (apply Z.pow_pos_nonneg; lia). split; [apply Z.div_pos; lia|].
  apply Z.le_lt_trans with x; [|lia]. apply Z.div_le_upper_bound; nia.
Qed.
Lemma shl_word : forall x n, word (shl x n).
Proof. intros. apply u32_word. Qed.

Notation turn := line.
Lemma turn_word : forall x y z m, word m -> word (turn x y z m).
Proof. intros. apply lxor_word; [apply u32_word|assumption]. Qed.
Lemma sub_inj : forall x x' y, word x -> word x' -> sub x y = sub x' y -> x = x'.
Proof. unfold word, sub, u32. intros x x' y H H' E. Z.to_euclidean_division_equations. lia. Qed.
Lemma turn_inj : forall x x' y z m, word x -> word x' -> turn x y z m = turn x' y z m -> x = x'.
Proof.
  intros x x' y z m Hx Hx' E. unfold line in E; cbv zeta in E. apply (f_equal (fun v => Z.lxor v m)) in E.
  rewrite !Z.lxor_assoc, !Z.lxor_nilpotent, !Z.lxor_0_r in E.
  apply sub_inj in E; [|apply u32_word ..]. now apply sub_inj in E.
Qed.
Definition unturn (x y z m : Z) : Z := add (add (Z.lxor x m) z) y.
Lemma add_word : forall x y, word (add x y).
Proof. intros. apply u32_word. Qed.
Lemma sub_add : forall x y, word x -> sub (add x y) y = x.
Proof. unfold word, sub, add, u32. intros x y H. Z.to_euclidean_division_equations. lia. Qed.
Lemma turn_unturn : forall x y z m, word x -> word m -> turn (unturn x y z m) y z m = x.
Proof.
  intros x y z m Hx Hm. unfold line, unturn; cbv zeta. rewrite sub_add by apply add_word. rewrite sub_add by now apply lxor_word.
  now rewrite Z.lxor_assoc, Z.lxor_nilpotent, Z.lxor_0_r.
Qed.

(** The mix as nine invertible steps on triples. *)
Notation triple := (Z * Z * Z)%type.
Definition words3 (s : triple) : Prop := let '(a, b, c) := s in word a /\ word b /\ word c.
Definition bij (f : triple -> triple) : Prop :=
  (forall s, words3 s -> words3 (f s)) /\ (forall s t, words3 s -> words3 t -> f s = f t -> s = t)
  /\ (forall t, words3 t -> exists s, words3 s /\ f s = t).
Lemma bij_comp : forall f g, bij f -> bij g -> bij (fun s => g (f s)).
Proof.
  intros f g (F1 & F2 & F3) (G1 & G2 & G3). repeat split.
  - intros s H. auto.
  - intros s t H1 H2 E. auto.
  - intros t H. destruct (G3 t H) as (u & Hu & <-). destruct (F3 u Hu) as (s & Hs & <-). eauto.
Qed.
Definition la (m : Z -> Z) (s : triple) : triple := let '(a, b, c) := s in (turn a b c (m c), b, c).
Definition lb (m : Z -> Z) (s : triple) : triple := let '(a, b, c) := s in (a, turn b c a (m a), c).
Definition lc (m : Z -> Z) (s : triple) : triple := let '(a, b, c) := s in (a, b, turn c a b (m b)).
Section line_bij.
  Variable m : Z -> Z.
  Hypothesis Hm : forall x, word x -> word (m x).
  Lemma la_bij : bij (la m).
  Proof.
    repeat split.
    - intros [[a b] c] (A & B & C). repeat split; try apply turn_word; auto; apply B || apply C.
    - intros [[a b] c] [[a' b'] c'] (A & B & C) (A' & B' & C') E. injection E as E1 E2 E3. subst b' c'.
      apply turn_inj in E1; auto. now subst.
    - intros [[a b] c] (A & B & C). exists (unturn a b c (m c), b, c). split; [repeat split; try apply add_word; apply B || apply C|].
      cbn. rewrite turn_unturn by auto. reflexivity.
  Qed.
  Lemma lb_bij : bij (lb m).
  Proof.
    repeat split.
    - intros [[a b] c] (A & B & C). repeat split; try apply turn_word; auto; apply A || apply C.
    - intros [[a b] c] [[a' b'] c'] (A & B & C) (A' & B' & C') E. injection E as E1 E2 E3. subst a' c'.
      apply turn_inj in E2; auto. now subst.
    - intros [[a b] c] (A & B & C). exists (a, unturn b c a (m a), c). split; [repeat split; try apply add_word; apply A || apply C|].
      cbn. rewrite turn_unturn by auto. reflexivity.
  Qed.
  Lemma lc_bij : bij (lc m).
  Proof.
    repeat split.
    - intros [[a b] c] (A & B & C). repeat split; try apply turn_word; auto; apply A || apply B.
    - intros [[a b] c] [[a' b'] c'] (A & B & C) (A' & B' & C') E. injection E as E1 E2 E3. subst a' b'.
      apply turn_inj in E3; auto. now subst.
    - intros [[a b] c] (A & B & C). exists (a, b, unturn c a b (m b)). split; [repeat split; try apply add_word; apply A || apply B|].
      cbn. rewrite turn_unturn by auto. reflexivity.
  Qed.
End line_bij.
Definition mix3 (s : triple) : triple := let '(a, b, c) := s in mix a b c.
Definition nine : list (triple -> triple) :=
  [la (fun v => shr v 13); lb (fun v => shl v 8); lc (fun v => shr v 13); la (fun v => shr v 12); lb (fun v => shl v 16); lc (fun v => shr v 5); la (fun v => shr v 3); lb (fun v => shl v 10); lc (fun v => shr v 15)].
Lemma mix3_nine : forall s, mix3 s = fold_left (fun s f => f s) nine s.
Proof. intros [[a b] c]. reflexivity. Qed.
Lemma bij_fold : forall l, Forall bij l -> bij (fold_left (fun s f => f s) l).
Proof.
  induction 1 as [|f l F _ IH].
  - repeat split; cbn; auto. intros t Ht. eauto.
  - exact (bij_comp f _ F IH).
Qed.
Lemma mix3_bij : bij mix3.
Proof.
  assert (B : bij (fold_left (fun s f => f s) nine)).
  { apply bij_fold. repeat (apply Forall_cons || apply Forall_nil);
      (apply la_bij || apply lb_bij || apply lc_bij); intros; (apply shl_word || (apply shr_word; [lia|assumption])). }
  destruct B as (B1 & B2 & B3). repeat split.
  - intros s H. rewrite mix3_nine. auto.
  - intros s t H1 H2. rewrite !mix3_nine. auto.
  - intros t H. destruct (B3 t H) as (s & Hs & E). exists s. rewrite mix3_nine. auto.
Qed.

(** ** The byte hash *)
Local Opaque mix.
Lemma shl_byte : forall b n, byte b -> (n = 0 \/ n = 8 \/ n = 16 \/ n = 24) -> shl b n = b * 2 ^ n.
Proof.
  intros b n Hb Hn. unfold shl, u32, byte in *. rewrite Z.shiftl_mul_pow2 by lia. apply Z.mod_small.
  destruct Hn as [->|[->|[->| ->]]]; lia.
Qed.

Lemma word_at_le : forall k i, Forall byte k -> (i + 4 <= length k)%nat -> word_at k i = Ok (le (firstn 4 (skipn i k))).
Proof.
  intros k i F L. unfold word_at, at_, get.
  rewrite <- (firstn_skipn i k) in F. apply Forall_app in F. destruct F as [_ F].
  assert (E : forall j, nth_error k (i + j) = nth_error (skipn i k) j) by (intros; now rewrite nth_error_skipn).
  assert (E0 : nth_error k i = nth_error (skipn i k) 0) by (rewrite <- E; f_equal; lia). rewrite E0, !E.
  assert (Ls : (4 <= length (skipn i k))%nat) by (rewrite skipn_length; lia).
  destruct (skipn i k) as [|k0 [|k1 [|k2 [|k3 t]]]]; cbn in Ls; try lia.
  inversion F as [|? ? F0 G0]; subst. inversion G0 as [|? ? F1 G1]; subst. inversion G1 as [|? ? F2 G2]; subst. inversion G2 as [|? ? F3 G3]; subst.
  cbn [nth_error bind firstn le]. rewrite !shl_byte by (assumption || lia). unfold add, u32, byte in *. f_equal.
  Z.to_euclidean_division_equations. lia.
Qed.

Lemma firstn_skipn_in : forall (k : list Z) i n m, (i + n <= m)%nat -> firstn n (skipn i (firstn m k)) = firstn n (skipn i k).
Proof. intros. rewrite skipn_firstn_comm, firstn_firstn. f_equal. lia. Qed.

Lemma mix3_plus : forall a b c x y z, mix3 (plus32 (a, b, c) (x, y, z)) = mix (add a x) (add b y) (add c z).
Proof. reflexivity. Qed.
Lemma words_12 : forall k, words (firstn 12 k) = (le (firstn 4 (skipn 0 k)), le (firstn 4 (skipn 4 k)), le (firstn 4 (skipn 8 k))).
Proof. intros k. unfold words. rewrite !firstn_skipn_in by lia. rewrite firstn_firstn. reflexivity. Qed.
Lemma block_step : forall k a b c, mix (add a (le (firstn 4 (skipn 0 k)))) (add b (le (firstn 4 (skipn 4 k)))) (add c (le (firstn 4 (skipn 8 k))))
  = mix3 (plus32 (a, b, c) (words (firstn 12 k))).
Proof. intros. rewrite words_12. symmetry. apply mix3_plus. Qed.
Lemma whole_blocks_S : forall m n k s, whole_blocks m (S n) k s = whole_blocks m n (skipn 12 k) (m (plus32 s (words (firstn 12 k)))).
Proof. reflexivity. Qed.
Lemma main_loop_spec : forall n fuel k len s, Forall byte k -> 0 <= len <= Z.of_nat (length k) -> n = Z.to_nat (len / 12) -> (n < fuel)%nat ->
  let '(a, b, c) := s in
  main_loop fuel k len a b c = Ok (skipn (12 * n) k, len mod 12, whole_blocks mix3 n k s).
Proof.
  induction n as [|n IH]; intros fuel k len [[a b] c] F L En Lf; destruct fuel as [|f]; try lia; cbn [main_loop].
  - assert (len < 12) by (Z.to_euclidean_division_equations; lia). replace (12 <=? len) with false by lia.
    rewrite Z.mod_small by lia. reflexivity.
  - assert (12 <= len) by (Z.to_euclidean_division_equations; lia). replace (12 <=? len) with true by lia.
    rewrite !word_at_le by (assumption || lia). cbn [bind].
    rewrite whole_blocks_S, block_step. destruct (mix3 _) as [[a' b'] c'].
    specialize (IH f (skipn 12 k) (len - 12) (a', b', c')). cbv beta iota zeta in IH.
    rewrite IH.
    + rewrite skipn_skipn. replace (12 * n + 12)%nat with (12 * S n)%nat by lia.
      replace ((len - 12) mod 12) with (len mod 12) by (Z.to_euclidean_division_equations; lia).
      reflexivity.
    + rewrite <- (firstn_skipn 12 k) in F. apply Forall_app in F. apply F.
    + rewrite skipn_length. lia.
    + Z.to_euclidean_division_equations; lia.
    + lia.
Qed.

Lemma case_eq : forall len n k i sh x, (forall b, nth_error k i = Some b -> byte b) -> (n <= len -> Z.of_nat i < Z.of_nat (length k)) ->
  (sh = 0 \/ sh = 8 \/ sh = 16 \/ sh = 24) ->
  case_ len n k i sh x = Ok (if n <=? len then u32 (x + nth i k 0 * 2 ^ sh) else x).
Proof.
  intros len n k i sh x B L Sh. unfold case_. destruct (n <=? len) eqn:E; [|reflexivity].
  destruct (nth_error k i) as [b|] eqn:G; [|apply nth_error_None in G; lia].
  unfold at_, get. rewrite G. cbn [bind]. erewrite nth_error_nth by exact G. rewrite shl_byte; auto.
Qed.
Lemma plus32_words : forall s t, words3 (plus32 s t).
Proof. intros [[a b] c] [[x y] z]. repeat split; apply Z.mod_pos_bound; lia. Qed.
Lemma whole_blocks_words : forall n k s, words3 s -> words3 (whole_blocks mix3 n k s).
Proof.
  induction n as [|n IH]; intros k s H; [exact H|]. rewrite whole_blocks_S. apply IH. apply (proj1 mix3_bij). apply plus32_words.
Qed.
Lemma final_mix : forall A B C T, (A, B, C) = T -> (let '(_, _, c) := mix A B C in Ok c) = (let '(_, _, c) := mix3 T in Ok c).
Proof. intros A B C T <-. reflexivity. Qed.
Lemma hash_spec : forall iv k, word iv -> Forall byte k -> Z.of_nat (length k) < 2 ^ 32 ->
  bobJenkinsHash iv k = let '(_, _, c) := jenkins mix3 iv k in Ok c.
Proof.
  intros iv k Hiv F L. unfold bobJenkinsHash. unfold u32 at 1. rewrite Z.mod_small by lia.
  set (n := Nat.div (length k) 12).
  assert (En : n = Z.to_nat (Z.of_nat (length k) / 12)) by (unfold n; rewrite <- (Nat2Z.id (length k / 12)), Nat2Z.inj_div; reflexivity).
  assert (Ln : (12 * n <= length k < 12 * n + 12)%nat) by (unfold n; pose proof (Nat.div_mod (length k) 12); pose proof (Nat.mod_upper_bound (length k) 12); lia).
  pose proof (main_loop_spec n (S (length k)) k (Z.of_nat (length k)) (0x9e3779b9, 0x9e3779b9, iv) F) as M. cbv beta iota zeta in M.
  rewrite M; [clear M|lia|exact En|lia]. cbn [bind].
  unfold jenkins. fold n. cbv zeta.
  pose proof (whole_blocks_words n k (0x9e3779b9, 0x9e3779b9, iv)) as A0. destruct (whole_blocks mix3 n k _) as [[a b] c].
  assert (I0 : words3 (0x9e3779b9, 0x9e3779b9, iv)) by (unfold words3; split; [unfold word; lia|split; [unfold word; lia|exact Hiv]]).
  specialize (A0 I0). clear I0.
  assert (Ft : Forall byte (skipn (12 * n) k)) by (rewrite <- (firstn_skipn (12 * n) k) in F; apply Forall_app in F; apply F).
  assert (Lt : Z.of_nat (length (skipn (12 * n) k)) = Z.of_nat (length k) mod 12)
    by (rewrite skipn_length; Z.to_euclidean_division_equations; lia).
  set (t := skipn (12 * n) k) in *. rewrite <- Lt. clear Lt.
  assert (Bt : forall i b, nth_error t i = Some b -> byte b) by (intros i x G; rewrite Forall_forall in Ft; apply Ft; eapply nth_error_In; eauto).
  set (ln := length k) in *. assert (L12 : (length t < 12)%nat) by (unfold t; rewrite skipn_length; fold ln; lia).
  repeat (rewrite case_eq by (first [apply Bt|lia]); cbn [bind]).
  apply final_mix. unfold last_block, words, plus32.
  clearbody t ln. clear - L12 A0. destruct A0 as (Ha & Hb & Hc). unfold word in *. unfold add.
  destruct t as [|x0 [|x1 [|x2 [|x3 [|x4 [|x5 [|x6 [|x7 [|x8 [|x9 [|x10 [|x11 t]]]]]]]]]]]]; cbn [length] in L12; try lia; clear L12.
  all: cbn -[Z.modulo Z.add Z.mul Z.pow u32]; f_equal; [f_equal|]; unfold u32; rewrite ?Z.add_0_r;
    repeat (rewrite ?Zplus_mod_idemp_l, <- ?Z.add_assoc); rewrite ?Zplus_mod_idemp_l, ?Zmod_mod;
    try (symmetry; apply Z.mod_small; assumption); apply (f_equal (fun v => v mod 2 ^ 32)); lia.
Qed.

Lemma jenkins_words : forall iv k, words3 (jenkins mix3 iv k).
Proof. intros. unfold jenkins. cbv zeta. apply (proj1 mix3_bij). apply plus32_words. Qed.

(** ** Whole blocks carry all their information into the state *)
Definition block (q : list Z) : Prop := length q = 12%nat /\ Forall byte q.
Lemma words_inj : forall q q', block q -> block q' -> words q = words q' -> q = q'.
Proof.
  assert (L4 : forall a b c d a' b' c' d', byte a -> byte b -> byte c -> byte d -> byte a' -> byte b' -> byte c' -> byte d' ->
    le [a; b; c; d] = le [a'; b'; c'; d'] -> a = a' /\ b = b' /\ c = c' /\ d = d') by (unfold byte, le; intros; lia).
  intros q q' [L F] [L' F'].
  do 12 (destruct q as [|? q]; [discriminate L|]). destruct q; [|discriminate L].
  do 12 (destruct q' as [|? q']; [discriminate L'|]). destruct q'; [|discriminate L'].
  repeat match goal with X : Forall byte (_ :: _) |- _ => inversion X; clear X; subst end.
  unfold words. cbn [firstn skipn]. intros E. injection E as E1 E2 E3.
  apply L4 in E1; [|assumption ..]. apply L4 in E2; [|assumption ..]. apply L4 in E3; [|assumption ..].
  intuition subst; reflexivity.
Qed.
Lemma words_onto : forall x y z, word x -> word y -> word z -> exists q, block q /\ words q = (x, y, z).
Proof.
  set (d := fun v => [v mod 256; v / 256 mod 256; v / 65536 mod 256; v / 16777216 mod 256]).
  assert (D : forall v, word v -> le (d v) = v).
  { unfold word, d, le. intros v H. Z.to_euclidean_division_equations. lia. }
  assert (B : forall v, Forall byte (d v)) by (intros v; unfold d; repeat constructor; apply Z.mod_pos_bound; lia).
  intros x y z Hx Hy Hz. exists (d x ++ d y ++ d z). split.
  - split; [reflexivity|]. rewrite !Forall_app. auto.
  - rewrite <- (D x Hx) at 2. rewrite <- (D y Hy) at 2. rewrite <- (D z Hz) at 2. reflexivity.
Qed.
Lemma whole_blocks_app : forall n k q s, (12 * n <= length k)%nat ->
  whole_blocks mix3 n (k ++ q) s = whole_blocks mix3 n k s.
Proof.
  induction n as [|n IH]; intros k q s L; [reflexivity|]. rewrite !whole_blocks_S.
  rewrite firstn_app, skipn_app. replace (12 - length k)%nat with 0%nat by lia.
  change (firstn 0 q) with (@nil Z). change (skipn 0 q) with q. rewrite app_nil_r.
  apply IH. rewrite skipn_length. lia.
Qed.
Lemma whole_blocks_snoc : forall n k s, whole_blocks mix3 (S n) k s
  = mix3 (plus32 (whole_blocks mix3 n k s) (words (firstn 12 (skipn (12 * n) k)))).
Proof.
  induction n as [|n IH]; intros k s; [reflexivity|].
  rewrite whole_blocks_S, IH, <- whole_blocks_S. do 3 f_equal. rewrite skipn_skipn. do 2 f_equal. lia.
Qed.
Lemma jenkins_block : forall iv p q m, length p = (12 * m)%nat -> block q ->
  jenkins mix3 iv (p ++ q) = mix3 (plus32 (mix3 (plus32 (whole_blocks mix3 m p (0x9e3779b9, 0x9e3779b9, iv)) (words q)))
    (0, 0, Z.of_nat (length p + 12))).
Proof.
  intros iv p q m Lp [Lq Fq]. unfold jenkins. cbv zeta. rewrite app_length, Lq.
  replace ((length p + 12) / 12)%nat with (S m).
  2:{ rewrite Lp. replace (12 * m + 12)%nat with (S m * 12)%nat by lia. symmetry. apply Nat.div_mul. lia. }
  rewrite whole_blocks_snoc, whole_blocks_app by lia. rewrite (@skipn_all2 _ (12 * S m) (p ++ q)) by (rewrite app_length; lia).
  rewrite skipn_app, (@skipn_all2 _ (12 * m) p) by lia. replace (12 * m - length p)%nat with 0%nat by lia. cbn [app skipn].
  rewrite firstn_all2 by lia. f_equal. destruct (mix3 _) as [[a b] c]. unfold plus32, last_block, words. cbn [firstn skipn le app].
  rewrite !Z.add_0_r, !Zmod_mod. reflexivity.
Qed.
Lemma plus32_inj_r : forall s t t', words3 t -> words3 t' -> plus32 s t = plus32 s t' -> t = t'.
Proof.
  intros [[a b] c] [[x y] z] [[x' y'] z'] (X & Y & Z0) (X' & Y' & Z') E. unfold word, plus32 in *. injection E as E1 E2 E3.
  assert (A : forall u v v', 0 <= v < 2 ^ 32 -> 0 <= v' < 2 ^ 32 -> (u + v) mod 2 ^ 32 = (u + v') mod 2 ^ 32 -> v = v')
    by (intros; Z.to_euclidean_division_equations; lia).
  apply A in E1; [|assumption ..]. apply A in E2; [|assumption ..]. apply A in E3; [|assumption ..]. now subst.
Qed.
Lemma plus32_comm : forall s t, plus32 s t = plus32 t s.
Proof. intros [[a b] c] [[x y] z]. unfold plus32. rewrite (Z.add_comm a), (Z.add_comm b), (Z.add_comm c). reflexivity. Qed.
Lemma plus32_onto : forall s u, words3 u -> exists t, words3 t /\ plus32 s t = u.
Proof.
  intros [[a b] c] [[x y] z] (X & Y & Z0). exists (plus32 (x, y, z) (- a, - b, - c)). split; [apply plus32_words|].
  unfold plus32, word in *. rewrite !Zplus_mod_idemp_r.
  replace (a + (x + - a)) with x by lia. replace (b + (y + - b)) with y by lia. replace (c + (z + - c)) with z by lia.
  rewrite !Z.mod_small by assumption. reflexivity.
Qed.
Lemma words_words3 : forall q, block q -> words3 (words q).
Proof.
  intros q [L F]. do 12 (destruct q as [|? q]; [discriminate L|]). destruct q; [|discriminate L].
  repeat match goal with X : Forall byte (_ :: _) |- _ => inversion X; clear X; subst end.
  unfold byte, words, words3, word in *. cbn [firstn skipn le]. lia.
Qed.
