(** Proofs about the Marsaglia generators. *)
From Coq Require Import List Arith ZArith Lia Bool ZifyBool ZifyNat.
From Verif Require Import Common CommonFacts ListFacts HashFns_Model Random_Model Random_Spec MT_Proofs Marsaglia_Model Marsaglia_Spec.
Import ListNotations.
Local Open Scope Z_scope.

(** Injective functions on a finite set are periodic. *)
Lemma repeat_or_nodup (c : nat -> Z) n : (exists i j, (i < j < n)%nat /\ c i = c j) \/ NoDup (map c (seq 0 n)).
Proof.
  induction n as [|n [(i & j & H & E)|IH]]; [right; constructor|left; exists i, j; split; [lia|exact E]|].
  destruct (in_dec Z.eq_dec (c n) (map c (seq 0 n))) as [I|I].
  - left. apply in_map_iff in I as (i & E & I). apply in_seq in I. exists i, n. split; [lia|exact E].
  - right. rewrite seq_S, map_app. cbn [map Nat.add]. apply NoDup_Add with (a := c n) (l := map c (seq 0 n)); [|split; assumption].
    rewrite <- (app_nil_r (map c (seq 0 n))) at 1. apply Add_app.
Qed.
Lemma pigeon (c : nat -> Z) N : 0 <= N -> (forall n, 0 <= c n < N) -> exists i j, (i < j)%nat /\ Z.of_nat j <= N /\ c i = c j.
Proof.
  intros HN R. destruct (repeat_or_nodup c (S (Z.to_nat N))) as [(i & j & H & E)|ND].
  - exists i, j. repeat split; [lia|lia|exact E].
  - exfalso. assert (L : incl (map c (seq 0 (S (Z.to_nat N)))) (map Z.of_nat (seq 0 (Z.to_nat N)))).
    { intros v I. apply in_map_iff in I as (n & <- & _). apply in_map_iff. exists (Z.to_nat (c n)). specialize (R n). split; [lia|]. apply in_seq. lia. }
    apply (NoDup_incl_length ND) in L. rewrite !map_length, !seq_length in L. lia.
Qed.
Lemma iter_add {T} (f : T -> T) i k a : Nat.iter (i + k) f a = Nat.iter i f (Nat.iter k f a).
Proof. induction i as [|i IH]; [reflexivity|]. cbn [Nat.add Nat.iter nat_rect]. now f_equal. Qed.
Lemma inj_periodic {T} (P : T -> Prop) (f : T -> T) (code : T -> Z) N : 0 <= N ->
  (forall a, P a -> P (f a)) -> (forall a, P a -> 0 <= code a < N) ->
  (forall a b, P a -> P b -> code a = code b -> a = b) -> (forall a b, P a -> P b -> f a = f b -> a = b) ->
  forall a, P a -> exists p, (0 < p)%nat /\ Z.of_nat p <= N /\ Nat.iter p f a = a.
Proof.
  intros HN Pf R CI FI a Pa.
  assert (PI : forall n, P (Nat.iter n f a)) by (induction n as [|n IH]; [exact Pa|cbn [Nat.iter nat_rect]; auto]).
  destruct (pigeon (fun n => code (Nat.iter n f a)) N HN (fun n => R _ (PI n))) as (i & j & Hij & Hj & E).
  apply CI in E; [|apply PI..]. exists (j - i)%nat. repeat split; [lia|lia|].
  replace j with (i + (j - i))%nat in E by lia. rewrite iter_add in E. remember (Nat.iter (j - i) f a) as b eqn:Hb.
  assert (Pb : P b) by (subst b; apply PI). clear - E Pa Pb Pf FI PI. revert E. induction i as [|i IH]; intros E; [symmetry; exact E|].
  cbn [Nat.iter nat_rect] in E. apply FI in E; [exact (IH E)|apply PI|]. clear - Pb Pf. induction i as [|i IH]; [exact Pb|cbn [Nat.iter nat_rect]; auto].
Qed.

(** The xor-shift step *)
Definition gmix (x : Z) : Z :=
  let t := Z.lxor x (Z.shiftl x 15 mod 2 ^ 32) in Z.lxor t (Z.shiftr t 4).
Definition hmix (w : Z) : Z := Z.lxor w (Z.shiftr w 21).
Lemma xs_step_mix a b : xs_step a b = Z.lxor (gmix a) (hmix b).
Proof. unfold xs_step, gmix, hmix. cbv zeta. now rewrite !Z.shiftr_div_pow2, !Z.shiftl_mul_pow2 by lia. Qed.
Lemma linear_gmix : linear gmix.
Proof.
  unfold gmix. assert (L : linear (fun x => Z.lxor x (Z.shiftl x 15 mod 2 ^ 32))) by (apply linear_lxor; [apply linear_id|apply linear_mod; [lia|]; apply linear_shiftl, linear_id]).
  apply linear_lxor; [exact L|apply linear_shiftr, L].
Qed.
Definition ungmix (y : Z) : Z := undo_l 15 (2 ^ 32 - 1) 3 (undo_r 4 8 y).
Lemma ungmix_gmix y : word y -> ungmix (gmix y) = y.
Proof.
  apply (linear_fix (fun y => ungmix (gmix y)) (linear_comp _ _ (linear_comp _ _ (linear_undo_l _ _ _) (linear_undo_r _ _)) linear_gmix) 32); [lia|]. vm_compute. reflexivity.
Qed.
Lemma word_gmix y : word y -> word (gmix y).
Proof. intros H. unfold gmix. cbv zeta. assert (W : word (Z.lxor y (Z.shiftl y 15 mod 2 ^ 32))) by (apply word_lxor; [exact H|apply word_mod]). apply word_lxor; [exact W|]. now apply word_shiftr. Qed.
Lemma word_hmix y : word y -> word (hmix y).
Proof. intros H. apply word_lxor; [exact H|]. now apply word_shiftr. Qed.
Lemma word_xs a b : word a -> word b -> word (xs_step a b).
Proof. intros A B. rewrite xs_step_mix. apply word_lxor; [now apply word_gmix|now apply word_hmix]. Qed.
Lemma xs_inj a a' b : word a -> word a' -> xs_step a b = xs_step a' b -> a = a'.
Proof.
  intros W W' E. rewrite !xs_step_mix in E.
  assert (G : gmix a = gmix a') by (rewrite <- (Z.lxor_0_r (gmix a)), <- (Z.lxor_0_r (gmix a')), <- (Z.lxor_nilpotent (hmix b)), <- !Z.lxor_assoc; now f_equal).
  rewrite <- (ungmix_gmix a W), <- (ungmix_gmix a' W'). now f_equal.
Qed.

(** Two words of state *)
Definition pstep (p : Z * Z) : Z * Z := (snd p, xs_step (fst p) (snd p)).
Definition useq (p : Z * Z) (n : nat) : Z := fst (Nat.iter n pstep p).
Lemma useq_snd p n : snd (Nat.iter n pstep p) = useq p (S n).
Proof. reflexivity. Qed.
Lemma useq_xorshift p : xorshift 2 (useq p).
Proof.
  intros n. replace (n + 2)%nat with (S (S n)) by lia. replace (S (S n) - 1)%nat with (S n) by lia. unfold useq at 1 2. cbn [Nat.iter nat_rect].
  unfold pstep at 1. cbn [fst snd]. unfold pstep at 1. cbn [snd fst]. reflexivity.
Qed.
Lemma useq_unique u p : xorshift 2 u -> u 0%nat = fst p -> u 1%nat = snd p -> forall n, u n = useq p n /\ u (S n) = useq p (S n).
Proof.
  intros X E0 E1. induction n as [|n [IH1 IH2]]; [split; assumption|]. split; [exact IH2|].
  pose proof (X n) as X1. pose proof (useq_xorshift p n) as X2. replace (n + 2)%nat with (S (S n)) in * by lia. replace (S (S n) - 1)%nat with (S n) in * by lia.
  rewrite X1, X2. now rewrite IH1, IH2.
Qed.
Definition wordpair (p : Z * Z) : Prop := word (fst p) /\ word (snd p).
Lemma pstep_words p : wordpair p -> wordpair (pstep p).
Proof. intros [A B]. split; [exact B|]. now apply word_xs. Qed.
Lemma pstep_inj p q : wordpair p -> wordpair q -> pstep p = pstep q -> p = q.
Proof.
  destruct p as [a b], q as [a' b']. intros [A B] [A' B'] E. unfold pstep in E. cbn [fst snd] in *. assert (Eb : b = b') by congruence. subst b'.
  assert (Ex : xs_step a b = xs_step a' b) by congruence. now rewrite (xs_inj a a' b A A' Ex).
Qed.
Lemma pstep_period p : wordpair p -> exists n, (0 < n)%nat /\ Z.of_nat n <= 2 ^ 64 /\ Nat.iter n pstep p = p.
Proof.
  apply (inj_periodic wordpair pstep (fun p => fst p * 2 ^ 32 + snd p)); [lia|apply pstep_words| | |apply pstep_inj].
  - intros [a b] [A B]. unfold word in *. cbn [fst snd] in *. lia.
  - intros [a b] [a' b'] [A B] [A' B'] E. unfold word in *. cbn [fst snd] in *. assert (a = a') by lia. subst. f_equal. lia.
Qed.
Lemma iter_pstep_words n p : wordpair p -> wordpair (Nat.iter n pstep p).
Proof. intros H. induction n as [|n IH]; [exact H|]. cbn [Nat.iter nat_rect]. now apply pstep_words. Qed.
Lemma pstep_alive n p : wordpair p -> p <> (0, 0) -> Nat.iter n pstep p <> (0, 0).
Proof.
  intros W H. induction n as [|n IH]; [exact H|]. cbn [Nat.iter nat_rect]. intros E. apply IH. apply pstep_inj; [now apply iter_pstep_words|split; unfold word; cbn; lia|]. transitivity (0, 0); [exact E|reflexivity].
Qed.

Definition front (s : micro) : Z * Z := (x_ s, w_ s).
Lemma micro_next s : micro_randInt s = Ok (xs_step (x_ s) (w_ s), mk_micro (w_ s) (z_ s) (z_ s) (xs_step (x_ s) (w_ s))).
Proof. unfold micro_randInt. cbv zeta. unfold xs_step. cbv zeta. now rewrite !Z.shiftr_div_pow2, !Z.shiftl_mul_pow2 by lia. Qed.
Lemma iter_shift {T} (f : T -> T) n a : Nat.iter n f (f a) = Nat.iter (S n) f a.
Proof. induction n as [|n IH]; [reflexivity|]. change (f (Nat.iter n f (f a)) = f (Nat.iter (S n) f a)). now rewrite IH. Qed.
Lemma micro_emits n : forall s, exists s', emits micro_randInt s (map (fun i => useq (front s) (2 + i)) (seq 0 n)) s'.
Proof.
  induction n as [|n IH]; intros s; [exists s; constructor|]. pose proof (micro_next s) as E. set (s1 := mk_micro _ _ _ _) in E. destruct (IH s1) as [s' H]. exists s'.
  cbn [seq map]. econstructor; [exact E|]. rewrite <- seq_shift, map_map. erewrite map_ext; [exact H|]. intros i. cbn beta. unfold useq.
  change (front s1) with (pstep (front s)). rewrite iter_shift. reflexivity.
Qed.
Lemma emits_det {G} (next : G -> res (Z * G)) g rs g' : emits next g rs g' -> forall rs2 g2, emits next g rs2 g2 -> length rs = length rs2 -> rs = rs2 /\ g' = g2.
Proof.
  induction 1 as [g|g r g1 rs g' E T IH]; intros rs2 g2 H L; inversion H; subst; cbn [length] in L; try lia; [split; reflexivity|].
  rewrite E in *. match goal with H : Ok _ = Ok _ |- _ => injection H; intros; subst end. destruct (IH _ _ ltac:(eassumption) ltac:(lia)). subst. split; reflexivity.
Qed.
Lemma micro_emits_words s rs s' : emits micro_randInt s rs s' -> rs = map (fun i => useq (front s) (2 + i)) (seq 0 (length rs)).
Proof. intros H. destruct (micro_emits (length rs) s) as [s2 H2]. apply (emits_det _ _ _ _ H _ _ H2). now rewrite map_length, seq_length. Qed.
Lemma nth_map_seq (f : nat -> Z) n i : (i < n)%nat -> nth_error (map f (seq 0 n)) i = Some (f i).
Proof. intros H. rewrite (map_nth_error f i (seq 0 n) (d := i)); [reflexivity|]. rewrite (nth_error_nth' _ O) by (now rewrite seq_length). now rewrite seq_nth. Qed.
Lemma micro_nth s rs s' i : emits micro_randInt s rs s' -> (i < length rs)%nat -> nth_error rs i = Some (useq (front s) (2 + i)).
Proof. intros H L. rewrite (micro_emits_words _ _ _ H). exact (nth_map_seq (fun i => useq (front s) (2 + i)) _ _ L). Qed.

Lemma take_words_emits n : forall r l r', take_words n r = Ok (l, r') -> emits micro_randInt r l r' /\ length l = n.
Proof.
  induction n as [|n IH]; intros r l r' E; cbn [take_words] in E.
  - injection E as <- <-. split; [constructor|reflexivity].
  - destruct (micro_randInt r) as [[v r1]| | |] eqn:E1; cbn [bind] in E; try discriminate. destruct (take_words n r1) as [[l1 r2]| | |] eqn:E2; cbn [bind] in E; try discriminate.
    injection E as <- <-. destruct (IH _ _ _ E2) as [H L]. split; [econstructor; eassumption|cbn [length]; lia].
Qed.

(** The division by 2^32 - 1 *)
Definition quirk (t : Z) : Z * Z := if (t =? 0) || negb (t mod mwc_base =? 0) then (t / mwc_base, t mod mwc_base) else (t / mwc_base - 1, mwc_base).
Lemma divide_spec A x c : 0 < A < 2 ^ 31 -> word x -> 0 <= c <= A -> divide A x c = quirk (A * x + c).
Proof.
  intros HA Hx Hc. unfold word in Hx. unfold divide, quirk, mwc_base. cbv zeta. assert (Ht : 0 <= A * x + c <= A * 2 ^ 32) by nia. remember (A * x + c) as t eqn:Et. clear Et.
  rewrite (Z.mod_small t) by lia. rewrite Z.shiftr_div_pow2 by lia.
  assert (E : t = 2 ^ 32 * (t / 2 ^ 32) + t mod 2 ^ 32) by (apply Z.div_mod; lia). pose proof (Z.mod_pos_bound t (2 ^ 32) ltac:(lia)) as Hlo.
  set (hi := t / 2 ^ 32) in *. set (lo := t mod 2 ^ 32) in *. assert (Hhi : 0 <= hi < 2 ^ 31) by lia. clearbody hi lo.
  rewrite (Z.mod_small hi) by lia.
  assert (M : (t + hi) mod 2 ^ 32 = (lo + hi) mod 2 ^ 32) by (rewrite E; replace (2 ^ 32 * hi + lo + hi) with (lo + hi + hi * 2 ^ 32) by ring; now rewrite Z.mod_add by lia). rewrite M. clear M.
  destruct (Z_lt_ge_dec (lo + hi) (2 ^ 32)) as [H1|H1].
  - rewrite (Z.mod_small (lo + hi)) by lia. replace (lo + hi <? hi) with false by lia.
    destruct (Z.eq_dec (lo + hi) (2 ^ 32 - 1)) as [H2|H2].
    + assert (Q : t / (2 ^ 32 - 1) = hi + 1) by (symmetry; apply Z.div_unique with 0; lia).
      assert (R : t mod (2 ^ 32 - 1) = 0) by (symmetry; apply Z.mod_unique with (hi + 1); lia).
      rewrite Q, R. replace ((t =? 0) || negb (0 =? 0)) with false by lia. f_equal; lia.
    + assert (Q : t / (2 ^ 32 - 1) = hi) by (symmetry; apply Z.div_unique with (lo + hi); lia).
      assert (R : t mod (2 ^ 32 - 1) = lo + hi) by (symmetry; apply Z.mod_unique with hi; lia).
      rewrite Q, R. replace ((t =? 0) || negb (lo + hi =? 0)) with true by lia. reflexivity.
  - assert (S : (lo + hi) mod 2 ^ 32 = lo + hi - 2 ^ 32) by (symmetry; apply Z.mod_unique with 1; lia). rewrite S.
    replace (lo + hi - 2 ^ 32 <? hi) with true by lia. rewrite !Z.mod_small by lia.
    assert (Q : t / (2 ^ 32 - 1) = hi + 1) by (symmetry; apply Z.div_unique with (lo + hi - (2 ^ 32 - 1)); lia).
    assert (R : t mod (2 ^ 32 - 1) = lo + hi - (2 ^ 32 - 1)) by (symmetry; apply Z.mod_unique with (hi + 1); lia).
    rewrite Q, R. replace ((t =? 0) || negb (lo + hi - (2 ^ 32 - 1) =? 0)) with true by lia. f_equal; lia.
Qed.
Lemma quirk_range A x c : 0 < A < 2 ^ 31 -> word x -> 0 <= c <= A -> 0 <= fst (quirk (A * x + c)) <= A /\ 0 <= snd (quirk (A * x + c)) <= mwc_base.
Proof.
  intros HA Hx Hc. unfold word in Hx. assert (Ht : 0 <= A * x + c <= A * 2 ^ 32) by nia. remember (A * x + c) as t eqn:Et. clear Et. unfold quirk, mwc_base.
  pose proof (Z.mod_pos_bound t (2 ^ 32 - 1) ltac:(lia)). pose proof (Z.div_mod t (2 ^ 32 - 1) ltac:(lia)) as D.
  assert (0 <= t / (2 ^ 32 - 1)) by (apply Z.div_pos; lia). assert (t / (2 ^ 32 - 1) <= A) by (apply Z.lt_succ_r, Z.div_lt_upper_bound; nia).
  destruct ((t =? 0) || negb (t mod (2 ^ 32 - 1) =? 0)) eqn:E; cbn [fst snd]; nia.
Qed.

(** The ring of words *)
Record cwell (k : nat) (A : Z) (s : cmwc) (p : nat) : Prop := {
  cw_len : length (xs s) = (2 ^ k)%nat;
  cw_words : Forall word (xs s);
  cw_c : 0 <= c_ s <= A;
  cw_i : exists i, i_ s = Some i /\ word i /\ Z.of_nat p = (i + 1) mod 2 ^ Z.of_nat k }.
Lemma pow_nat_Z k : Z.of_nat (2 ^ k) = 2 ^ Z.of_nat k.
Proof. now rewrite Nat2Z.inj_pow. Qed.
Lemma next_position k i : (k <= 32)%nat -> Z.land ((i + 1) mod 2 ^ 32) (Z.of_nat (2 ^ k) - 1) = (i + 1) mod 2 ^ Z.of_nat k.
Proof.
  intros Hk. rewrite pow_nat_Z. replace (2 ^ Z.of_nat k - 1) with (Z.ones (Z.of_nat k)) by (rewrite Z.ones_equiv; lia). rewrite Z.land_ones by lia.
  replace (2 ^ 32) with (2 ^ Z.of_nat k * 2 ^ (32 - Z.of_nat k)) by (rewrite <- Z.pow_add_r by lia; f_equal; lia).
  rewrite Z.rem_mul_r by (try apply Z.pow_nonzero; try apply Z.pow_pos_nonneg; lia). rewrite (Z.mul_comm (2 ^ Z.of_nat k) (_ mod _)), Z.mod_add by (apply Z.pow_nonzero; lia). apply Z.mod_mod, Z.pow_nonzero; lia.
Qed.
Lemma skipn_nth {T} (l : list T) p x : nth_error l p = Some x -> skipn p l = x :: skipn (S p) l.
Proof. revert p. induction l as [|y l IH]; intros [|p] E; cbn in *; try discriminate; [congruence|]. now apply IH. Qed.
Lemma upd_parts {T} (l : list T) p v : (p < length l)%nat -> upd l p v = firstn p l ++ v :: skipn (S p) l.
Proof. revert p. induction l as [|y l IH]; intros [|p] L; cbn [length] in L; try lia; [reflexivity|]. cbn [upd firstn skipn app]. f_equal. apply IH. lia. Qed.
Lemma rotate_step l p x v : nth_error l p = Some x ->
  hd 0 (from_position l p) = x /\ from_position (upd l p v) (S p mod length l) = tl (from_position l p) ++ [v].
Proof.
  intros E. assert (L : (p < length l)%nat) by (apply nth_error_Some; congruence). unfold from_position. rewrite (skipn_nth _ _ _ E). cbn [app hd tl]. split; [reflexivity|].
  rewrite (upd_parts l p v L). assert (LF : length (firstn p l) = p) by (apply firstn_length_le; lia).
  destruct (Nat.eq_dec (S p) (length l)) as [H|H].
  - rewrite H, Nat.mod_same by lia. cbn [skipn firstn]. rewrite <- H. rewrite (skipn_all2 (n := S p)) by lia. cbn [app]. rewrite app_nil_r. reflexivity.
  - rewrite Nat.mod_small by lia. rewrite skipn_app, firstn_app, LF. replace (S p - p)%nat with 1%nat by lia. rewrite (skipn_all2 (firstn p l)) by lia. rewrite (firstn_all2 (firstn p l)) by lia. cbn [skipn firstn app]. now rewrite <- app_assoc.
Qed.
Lemma cmwc_step k A s p : (k <= 32)%nat -> 0 < A < 2 ^ 31 -> cwell k A s p ->
  exists v s', cmwc_randInt (2 ^ k) A s = Ok (v, s') /\ cwell k A s' (S p mod 2 ^ k) /\ word v /\
    let q := quirk (A * hd 0 (from_position (xs s) p) + c_ s) in
    v = (mwc_base - 1 - snd q) mod 2 ^ 32 /\ c_ s' = fst q /\ from_position (xs s') (S p mod 2 ^ k) = tl (from_position (xs s) p) ++ [v].
Proof.
  intros Hk HA [L W C (i & Ei & Wi & Ep)]. unfold cmwc_randInt. rewrite Ei. cbv zeta. rewrite next_position by exact Hk. rewrite <- Ep, Nat2Z.id.
  assert (P2 : 0 < 2 ^ Z.of_nat k) by (apply Z.pow_pos_nonneg; lia).
  assert (Lp : (p < length (xs s))%nat) by (pose proof (Z.mod_pos_bound (i + 1) (2 ^ Z.of_nat k) P2); rewrite L, <- (Nat2Z.id (2 ^ k)), pow_nat_Z; lia).
  destruct (nth_error (xs s) p) as [x|] eqn:Ex; [|apply nth_error_None in Ex; lia].
  assert (Wx : word x) by (eapply Forall_forall; [exact W|]; eapply nth_error_In; exact Ex).
  unfold get. rewrite Ex. cbn [bind]. rewrite divide_spec by assumption. destruct (quirk (A * x + c_ s)) as [q1 q2] eqn:Eq.
  pose proof (quirk_range A x (c_ s) HA Wx C) as [R1 R2]. rewrite Eq in R1, R2. cbn [fst snd] in R1, R2.
  change B32 with mwc_base. unfold put. replace (p <? length (xs s))%nat with true by (symmetry; apply Nat.ltb_lt; exact Lp). cbn [bind].
  set (v := (mwc_base - 1 - q2) mod 2 ^ 32). exists v. eexists. split; [reflexivity|]. cbn [xs c_ i_]. destruct (rotate_step (xs s) p x v Ex) as [Hh Hr]. rewrite Hh, Eq. cbn [fst snd].
  rewrite L in Hr. split; [|split; [apply word_mod|split; [reflexivity|split; [reflexivity|exact Hr]]]].
  split; cbn [xs c_ i_].
  - rewrite upd_parts by exact Lp. rewrite app_length, firstn_length_le by lia. cbn [length]. rewrite skipn_length. lia.
  - apply upd_words; [exact W|apply word_mod].
  - exact R1.
  - exists (Z.of_nat p). split; [reflexivity|]. split.
    + unfold word. pose proof (Z.pow_le_mono_r 2 (Z.of_nat k) 32 ltac:(lia) ltac:(lia)). pose proof (Z.mod_pos_bound (i + 1) (2 ^ Z.of_nat k) P2). lia.
    + rewrite Nat2Z.inj_mod, pow_nat_Z. f_equal. lia.
Qed.
Lemma cmwc_run k A n : (k <= 32)%nat -> 0 < A < 2 ^ 31 -> forall s p, cwell k A s p -> mwc_no_multiple A n (from_position (xs s) p, c_ s) ->
  exists s' p', emits (cmwc_randInt (2 ^ k) A) s (mwc_words A n (from_position (xs s) p, c_ s)) s' /\ cwell k A s' p'.
Proof.
  intros Hk HA. induction n as [|n IH]; intros s p H N; [exists s, p; split; [constructor|exact H]|].
  destruct (cmwc_step k A s p Hk HA H) as (v & s1 & E & H1 & Wv & Ev & Ec & Er). cbn [mwc_no_multiple] in N. destruct N as [N1 N2]. cbn [fst snd] in N1.
  unfold quirk in Ev, Ec. set (t := A * hd 0 (from_position (xs s) p) + c_ s) in *. replace ((t =? 0) || negb (t mod mwc_base =? 0)) with true in Ev, Ec by lia. cbn [fst snd] in Ev, Ec.
  pose proof (Z.mod_pos_bound t mwc_base ltac:(unfold mwc_base; lia)) as R. rewrite Z.mod_small in Ev by (unfold mwc_base in *; lia).
  assert (St : snd (mwc_step A (from_position (xs s) p, c_ s)) = (from_position (xs s1) (S p mod 2 ^ k), c_ s1)) by (unfold mwc_step; cbv zeta; cbn [fst snd]; fold t; now rewrite Er, Ev, Ec).
  rewrite St in N2. destruct (IH s1 _ H1 N2) as (s' & p' & Em & H'). exists s', p'. split; [|exact H'].
  cbn [mwc_words]. destruct (mwc_step A (from_position (xs s) p, c_ s)) as [v' q'] eqn:Es. cbn [snd] in St. subst q'. assert (v' = v) by (unfold mwc_step in Es; cbv zeta in Es; cbn [fst snd] in Es; fold t in Es; congruence). subst v'.
  econstructor; [exact E|exact Em].
Qed.
Lemma cmwc_safe k A n : (k <= 32)%nat -> 0 < A < 2 ^ 31 -> forall s p, cwell k A s p ->
  exists rs s' p', emits (cmwc_randInt (2 ^ k) A) s rs s' /\ length rs = n /\ Forall word rs /\ cwell k A s' p'.
Proof.
  intros Hk HA. induction n as [|n IH]; intros s p H; [exists [], s, p; split; [constructor|split; [reflexivity|split; [constructor|exact H]]]|].
  destruct (cmwc_step k A s p Hk HA H) as (v & s1 & E & H1 & Wv & _). destruct (IH s1 _ H1) as (rs & s' & p' & Em & L & W & H'). exists (v :: rs), s', p'. split; [econstructor; eassumption|].
  split; [cbn [length]; lia|]. split; [now constructor|exact H'].
Qed.
Lemma unbiased_range {G} (next : G -> res (Z * G)) umax max fuel : 0 < max -> forall g v g', randIntUnbiased next umax max fuel g = Ok (v, g') -> 0 <= v < max.
Proof.
  intros Hm. induction fuel as [|fuel IH]; intros g v g' E; cbn [randIntUnbiased] in E; [discriminate|]. destruct (next g) as [[r g1]| | |]; cbn [bind] in E; try discriminate.
  replace (max =? 0) with false in E by lia. destruct (accept umax max r) as [w|] eqn:Ea; [|exact (IH _ _ _ E)]. injection E as <- <-. unfold accept in Ea.
  destruct (_ >? r) eqn:E1 in Ea; [injection Ea as <-; apply Z.mod_pos_bound; lia|]. destruct (_ >? r) eqn:E2 in Ea; [injection Ea as <-; apply Z.mod_pos_bound; lia|discriminate].
Qed.
Lemma mix_word a b c : word (BobJenkinsHashMix3 a b c).
Proof.
  unfold BobJenkinsHashMix3, mix. cbv zeta. unfold line at 1. cbv zeta. apply word_lxor; [apply word_mod|]. apply word_shiftr; [lia|]. unfold line at 1. cbv zeta. apply word_lxor; apply word_mod.
Qed.
Lemma micro_words s rs s' : word (x_ s) -> word (w_ s) -> emits micro_randInt s rs s' -> Forall word rs.
Proof.
  intros Wx Ww H. rewrite (micro_emits_words _ _ _ H). apply Forall_forall. intros v I. apply in_map_iff in I as (i & <- & _). unfold useq.
  apply (iter_pstep_words (2 + i) (front s)). split; assumption.
Qed.
