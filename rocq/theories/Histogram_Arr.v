(** Proofs: what the in-place merging loops do to the bin array; total count. *)
From Coq Require Import List ZArith Bool Lia ZifyBool ZifyNat.
From Verif Require Import Common CommonFacts Arith Stats_Model Histogram_Spec Histogram_Model.
Import ListNotations.
Local Open Scope Z_scope.

Lemma zget_app : forall {X} (l r : list X) x i, i = Z.of_nat (length l) -> zget (l ++ x :: r) i = Ok x.
Proof.
  intros X l r x i ->. unfold zget. replace (0 <=? Z.of_nat (length l)) with true by lia. rewrite Nat2Z.id.
  unfold get. rewrite nth_error_app2, Nat.sub_diag by lia. reflexivity.
Qed.
Lemma zput_app : forall {X} (l r : list X) x y i, i = Z.of_nat (length l) -> zput (l ++ x :: r) i y = Ok (l ++ y :: r).
Proof.
  intros X l r x y i ->. unfold zput. replace (0 <=? Z.of_nat (length l)) with true by lia. rewrite Nat2Z.id.
  unfold put. rewrite app_length. cbn [length]. replace (length l <? length l + S (length r))%nat with true by lia.
  now rewrite upd_app_mid.
Qed.

Fixpoint pairs (l : list Z) : list Z :=
  match l with
  | a :: b :: r => u64 (a + b) :: pairs r
  | _ => []
  end.
Lemma pairs_app : forall x a b, Nat.Even (length x) -> pairs (x ++ [a; b]) = pairs x ++ [u64 (a + b)].
Proof.
  intros x a b [m E]. revert x E. induction m as [|m IH]; intros x E.
  - destruct x; [reflexivity|cbn in E; lia].
  - destruct x as [|p [|q x]]; cbn in E; try lia. cbn [app pairs]. rewrite IH by lia. reflexivity.
Qed.
Lemma pairs_length : forall m x, length x = (2 * m)%nat -> length (pairs x) = m.
Proof.
  induction m as [|m IH]; intros x E.
  - destruct x; [reflexivity|cbn in E; lia].
  - destruct x as [|p [|q x]]; cbn in E; try lia. cbn [pairs length]. rewrite IH; lia.
Qed.
Lemma split_last {X} : forall (l : list X) n, length l = S n -> exists l' a, l = l' ++ [a] /\ length l' = n.
Proof.
  intros l n H. destruct (exists_last (l := l)) as (l' & a & E); [intros ->; discriminate|].
  exists l', a. split; [exact E|]. rewrite E, app_length in H. cbn in H. lia.
Qed.

Lemma merge_up_spec : forall m x y z fuel, length x = (2 * m)%nat -> (m <= fuel)%nat ->
  exists y', merge_up fuel (x ++ y ++ z) (Z.of_nat (2 * m + length y) - 1) (Z.of_nat (2 * m) - 2)
             = Ok (y' ++ pairs x ++ z, Z.of_nat (length y') - 1) /\ length y' = (m + length y)%nat.
Proof.
  induction m as [|m IH]; intros x y z fuel Lx Lf.
  - destruct x; [|cbn in Lx; lia]. exists y. cbn [app pairs]. split; [|lia]. unfold merge_up.
    destruct fuel; replace (0 <=? _) with false by lia; repeat f_equal; lia.
  - destruct fuel as [|fuel]; [lia|].
    destruct (split_last x (S (2 * m))) as (x1 & c & -> & L1); [lia|].
    destruct (split_last x1 (2 * m)) as (x2 & a & -> & L2); [lia|].
    destruct (split_last ([a; c] ++ y) (S (length y))) as (y1 & d & Ey & Ly); [cbn; lia|].
    destruct (IH x2 y1 (u64 (a + c) :: z) fuel) as (y' & E & L); [lia|lia|].
    exists y'. split; [|rewrite L, Ly; lia].
    cbn [merge_up]. replace (0 <=? Z.of_nat (2 * S m) - 2) with true by lia.
    rewrite <- !app_assoc. cbn [app].
    rewrite zget_app by lia. cbn [bind].
    replace (x2 ++ a :: c :: y ++ z) with ((x2 ++ [a]) ++ c :: y ++ z) by (rewrite <- app_assoc; reflexivity).
    rewrite zget_app by (rewrite app_length; cbn [length]; lia).
    cbn [bind].
    replace ((x2 ++ [a]) ++ c :: y ++ z) with ((x2 ++ y1) ++ d :: z).
    2: { rewrite <- !app_assoc. f_equal. cbn [app]. change (d :: z) with ([d] ++ z). rewrite app_assoc, <- Ey. reflexivity. }
    rewrite zput_app by (rewrite app_length; lia). cbn [bind].
    rewrite <- !app_assoc.
    replace (Z.of_nat (2 * S m + length y) - 1 - 1) with (Z.of_nat (2 * m + length y1) - 1) by lia.
    replace (Z.of_nat (2 * S m) - 2 - 2) with (Z.of_nat (2 * m) - 2) by lia.
    rewrite E, pairs_app by (exists m; exact L2). rewrite <- app_assoc. reflexivity.
Qed.
Lemma zero_down_spec : forall y z fuel, (length y <= fuel)%nat ->
  zero_down fuel (y ++ z) (Z.of_nat (length y) - 1) = Ok (repeat 0 (length y) ++ z).
Proof.
  intros y. remember (length y) as n eqn:E. revert y E. induction n as [|n IH]; intros y E z fuel Lf.
  - destruct y; [|discriminate]. unfold zero_down. destruct fuel; cbn; reflexivity.
  - destruct fuel as [|fuel]; [lia|]. destruct (split_last y n) as (y1 & a & -> & L); [lia|].
    cbn [zero_down]. replace (0 <=? Z.of_nat (S n) - 1) with true by lia.
    rewrite <- app_assoc. cbn [app]. rewrite zput_app by lia. cbn [bind].
    replace (Z.of_nat (S n) - 1 - 1) with (Z.of_nat n - 1) by lia.
    rewrite (IH y1) by lia. f_equal. change (S n) with (1 + n)%nat. rewrite Nat.add_comm, repeat_app, <- app_assoc. reflexivity.
Qed.
Lemma merge_down_spec : forall m w y x fuel, length x = (2 * m)%nat -> (m <= fuel)%nat -> length y = length w ->
  exists y', merge_down fuel (Z.of_nat (length w + m)) (w ++ y ++ x) (Z.of_nat (length w)) (Z.of_nat (2 * length w))
             = Ok (w ++ pairs x ++ y', Z.of_nat (length w + m)) /\ length y' = (length w + m)%nat.
Proof.
  induction m as [|m IH]; intros w y x fuel Lx Lf Ly.
  - destruct x; [|cbn in Lx; lia]. exists y. cbn [pairs app]. rewrite app_nil_r, Nat.add_0_r. split; [|exact Ly].
    destruct fuel; cbn [merge_down]; rewrite Z.ltb_irrefl; reflexivity.
  - destruct fuel as [|fuel]; [lia|]. destruct x as [|a [|c x]]; cbn in Lx; try lia.
    destruct (y ++ [a; c]) as [|d y1] eqn:Ey; [destruct y; discriminate|].
    assert (Ly1 : length y1 = S (length y)) by (apply (f_equal (@length Z)) in Ey; rewrite app_length in Ey; cbn in Ey; lia).
    destruct (IH (w ++ [u64 (a + c)]) y1 x fuel) as (y' & E & L); [lia|lia|rewrite app_length; cbn; lia|].
    exists y'. rewrite app_length in E, L. cbn [length] in E, L. split; [|lia].
    cbn [merge_down]. replace (Z.of_nat (length w) <? _) with true by lia.
    replace (w ++ y ++ a :: c :: x) with ((w ++ y) ++ a :: c :: x) by now rewrite <- app_assoc.
    rewrite zget_app by (rewrite app_length; lia). cbn [bind].
    replace ((w ++ y) ++ a :: c :: x) with ((w ++ y ++ [a]) ++ c :: x) by (rewrite <- !app_assoc; reflexivity).
    rewrite zget_app by (rewrite !app_length; cbn [length]; lia). cbn [bind].
    replace ((w ++ y ++ [a]) ++ c :: x) with (w ++ d :: y1 ++ x).
    2: { rewrite <- !app_assoc. f_equal. change (d :: y1 ++ x) with ((d :: y1) ++ x). rewrite <- Ey, <- app_assoc. reflexivity. }
    rewrite zput_app by reflexivity. cbn [bind].
    replace (w ++ u64 (a + c) :: y1 ++ x) with ((w ++ [u64 (a + c)]) ++ y1 ++ x) by (rewrite <- app_assoc; reflexivity).
    replace (Z.of_nat (length w + S m)) with (Z.of_nat (length w + 1 + m)) by lia.
    replace (Z.of_nat (length w) + 1) with (Z.of_nat (length w + 1)) by lia.
    replace (Z.of_nat (2 * length w) + 2) with (Z.of_nat (2 * (length w + 1))) by lia.
    rewrite E. cbn [pairs]. rewrite <- app_assoc. reflexivity.
Qed.
Lemma zero_up_spec : forall y w fuel, (length y <= fuel)%nat ->
  zero_up fuel (Z.of_nat (length w + length y)) (w ++ y) (Z.of_nat (length w)) = Ok (w ++ repeat 0 (length y)).
Proof.
  induction y as [|a y IH]; intros w fuel Lf.
  - cbn [length repeat]. rewrite Nat.add_0_r. destruct fuel; cbn [zero_up]; now rewrite Z.ltb_irrefl.
  - cbn [length] in *. destruct fuel as [|fuel]; [lia|]. cbn [zero_up]. replace (Z.of_nat (length w) <? _) with true by lia.
    rewrite zput_app by reflexivity. cbn [bind]. specialize (IH (w ++ [0]) fuel). rewrite app_length in IH. cbn [length] in IH.
    replace (w ++ 0 :: y) with ((w ++ [0]) ++ y) by (rewrite <- app_assoc; reflexivity).
    replace (Z.of_nat (length w + S (length y))) with (Z.of_nat (length w + 1 + length y)) by lia.
    replace (Z.of_nat (length w) + 1) with (Z.of_nat (length w + 1)) by lia.
    rewrite IH by lia. cbn [repeat]. rewrite <- app_assoc. reflexivity.
Qed.

Lemma Ok_inj : forall {X} (a b : X), Ok a = Ok b -> a = b.
Proof. intros X a b H. now injection H. Qed.

Section G.
Variable A : arith.
Local Notation hist := (hist A).

Definition shape (h : hist) : Prop :=
  length (bins h) = Z.to_nat (num_bins h) /\ 0 <= num_bins h /\
  (is_scalable h = true -> is_growable h = false /\ Z.Even (num_bins h) /\ num_bins h <= 2 ^ 31).

Lemma scale_low_once_eq : forall h m, length (bins h) = (2 * m)%nat -> num_bins h = Z.of_nat (2 * m) -> (0 < m)%nat -> num_bins h <= 2 ^ 31 ->
  scale_low_once A h = Ok (mkHist (base h) (num_bins h) (nadd (bin_width h) (bin_width h))
     (nsub (bin_low h) (nsub (bin_high h) (bin_low h))) (bin_high h) (repeat 0 m ++ pairs (bins h)) (is_scalable h) (is_growable h)).
Proof.
  intros h m L N P B. unfold scale_low_once.
  replace (s32 (num_bins h - 1)) with (num_bins h - 1) by (unfold s32, u32; rewrite Z.mod_small by lia; destruct (num_bins h - 1 <? 2 ^ 31) eqn:E; lia).
  replace (s32 (num_bins h - 2)) with (num_bins h - 2) by (unfold s32, u32; rewrite Z.mod_small by lia; destruct (num_bins h - 2 <? 2 ^ 31) eqn:E; lia).
  destruct (merge_up_spec m (bins h) [] [] (length (bins h)) L ltac:(lia)) as (y' & E & Ly).
  rewrite !app_nil_r in E. cbn [length] in E, Ly. rewrite Nat.add_0_r in E, Ly. rewrite N, E. cbn [bind].
  rewrite zero_down_spec by lia. cbn [bind]. now rewrite Ly.
Qed.
Lemma scale_high_once_eq : forall h m, length (bins h) = (2 * m)%nat -> num_bins h = Z.of_nat (2 * m) ->
  scale_high_once A h = Ok (mkHist (base h) (num_bins h) (nadd (bin_width h) (bin_width h)) (bin_low h)
     (nadd (bin_high h) (nsub (bin_high h) (bin_low h))) (pairs (bins h) ++ repeat 0 m) (is_scalable h) (is_growable h)).
Proof.
  intros h m L N. unfold scale_high_once.
  destruct (merge_down_spec m [] [] (bins h) (length (bins h)) L ltac:(lia) eq_refl) as (y' & E & Ly).
  cbn [length app Nat.add Nat.mul] in E, Ly. replace (num_bins h / 2) with (Z.of_nat m) by (rewrite N; Z.to_euclidean_division_equations; lia).
  change (Z.of_nat 0) with 0 in E. rewrite E. cbn [bind].
  pose proof (pairs_length m (bins h) L) as Lp. pose proof (zero_up_spec y' (pairs (bins h)) (length (bins h)) ltac:(lia)) as Z.
  replace (num_bins h) with (Z.of_nat (length (pairs (bins h)) + length y')) at 1 by lia. rewrite <- Lp at 1. rewrite Z. cbn [bind]. now rewrite Ly.
Qed.

(** Total count. *)
Lemma zlsum_app : forall l m, zlsum (l ++ m) = zlsum l + zlsum m.
Proof. induction l as [|a l IH]; intros m; cbn; [reflexivity|]. fold (zlsum (l ++ m)) (zlsum l). rewrite IH. lia. Qed.
Lemma zlsum_repeat0 : forall n, zlsum (repeat 0 n) = 0.
Proof. induction n; cbn; auto. Qed.
Definition nonneg (l : list Z) : Prop := Forall (fun b => 0 <= b) l.
Lemma nonneg_sum : forall l, nonneg l -> 0 <= zlsum l.
Proof. induction 1; cbn; [lia|]. fold (zlsum l). lia. Qed.
Lemma nonneg_repeat0 : forall n, nonneg (repeat 0 n).
Proof. intros n. apply Forall_forall. intros x H. apply repeat_spec in H. lia. Qed.
Lemma pairs_sum : forall m l, length l = (2 * m)%nat -> nonneg l -> zlsum l < 2 ^ 64 -> zlsum (pairs l) = zlsum l /\ nonneg (pairs l).
Proof.
  induction m as [|m IH]; intros l L N B.
  - destruct l; [split; [reflexivity|constructor]|cbn in L; lia].
  - destruct l as [|a [|b l]]; cbn in L; try lia. inversion_clear N as [|? ? Na N']. inversion_clear N' as [|? ? Nb Nl].
    cbn in B. fold (zlsum l) in B. pose proof (nonneg_sum l Nl). destruct (IH l ltac:(lia) Nl ltac:(lia)) as [E P].
    unfold u64 in *. cbn [pairs]. split.
    + cbn. fold (zlsum l) (zlsum (pairs l)). rewrite E. unfold u64. rewrite Z.mod_small by lia. lia.
    + constructor; [|exact P]. unfold u64. rewrite Z.mod_small by lia. lia.
Qed.

Definition total (h : hist) (n : Z) : Prop := shape h /\ nonneg (bins h) /\ zlsum (bins h) = n.

Lemma shape_even : forall h, shape h -> is_scalable h = true -> exists m, length (bins h) = (2 * m)%nat /\ num_bins h = Z.of_nat (2 * m).
Proof. intros h (L & P & S) E. destruct (S E) as (_ & [k K] & _). exists (Z.to_nat k). lia. Qed.
Lemma grow_total : forall h v n h', total h n -> grow A h v = Ok h' -> total h' n /\ base h' = base h.
Proof.
  intros h v n h' (S & N & T) E. unfold grow in E. destruct (is_growable h && _) eqn:G; [|injection E as <-; split; [split; [exact S|split; assumption]|reflexivity]].
  apply andb_true_iff in G as [G _]. destruct S as (L & P & S).
  assert (NS : is_scalable h = false) by (destruct (is_scalable h); [destruct S; congruence|reflexivity]).
  destruct (nle (bin_high h) v).
  - destruct (nlt v _); cbn [invariant bind] in E; [|discriminate]. destruct (floor_unsigned _ _) as [f| | |]; try discriminate. cbn [bind] in E.
    destruct (num_bins h <=? _) eqn:B; [|discriminate]. injection E as <-. split; [|reflexivity].
    split; [|split]; cbn [bins num_bins is_scalable is_growable shape].
    + split; [|split]; cbn [bins num_bins is_scalable]; [rewrite app_length, repeat_length; lia|lia|congruence].
    + apply Forall_app. split; [exact N|apply nonneg_repeat0].
    + rewrite zlsum_app, zlsum_repeat0. lia.
  - destruct (nlt _ _); cbn [invariant bind] in E; [|discriminate]. destruct (floor_unsigned _ _) as [f| | |]; try discriminate. cbn [bind] in E.
    destruct (num_bins h <=? _) eqn:B; [|discriminate]. injection E as <-. split; [|reflexivity].
    split; [|split]; cbn [bins num_bins is_scalable is_growable shape].
    + split; [|split]; cbn [bins num_bins is_scalable]; [rewrite app_length, repeat_length; lia|lia|congruence].
    + apply Forall_app. split; [apply nonneg_repeat0|exact N].
    + rewrite zlsum_app, zlsum_repeat0. lia.
Qed.
Lemma low_once_total : forall h n h', total h n -> n < 2 ^ 64 -> is_scalable h = true -> scale_low_once A h = Ok h' ->
  total h' n /\ base h' = base h /\ is_scalable h' = is_scalable h.
Proof.
  intros h n h' (S & N & T) B SC E. destruct (shape_even h S SC) as (m & Lm & Nm). pose proof (proj2 (proj2 S) SC) as (S1 & S2 & S3).
  destruct m as [|m].
  - (* no bins: s32 (-1) = -1, the loops do nothing *)
    unfold scale_low_once in E. rewrite Nm in E. destruct (bins h) as [|b bs] eqn:Eb; [|discriminate]. cbn in E. injection E as <-.
    split; [|split; reflexivity]. split; [|split]; cbn [bins].
    + split; [reflexivity|split; [cbn; lia|]]. intros _. split; [exact S1|split; [now exists 0|cbn; lia]].
    + constructor.
    + cbn in T. cbn. lia.
  - rewrite (scale_low_once_eq h (Datatypes.S m) Lm Nm) in E by lia. apply Ok_inj in E. subst h'. split; [|split; reflexivity].
    destruct (pairs_sum (Datatypes.S m) (bins h) Lm N ltac:(lia)) as [P1 P2].
    split; [|split]; cbn [bins].
    + split; [cbn [bins num_bins]; rewrite app_length, repeat_length, (pairs_length (Datatypes.S m)) by exact Lm; lia|split; [cbn [num_bins]; lia|]].
      intros _. split; [exact S1|split; [exact S2|exact S3]].
    + apply Forall_app. split; [apply nonneg_repeat0|exact P2].
    + rewrite zlsum_app, zlsum_repeat0. lia.
Qed.
Lemma high_once_total : forall h n h', total h n -> n < 2 ^ 64 -> is_scalable h = true -> scale_high_once A h = Ok h' ->
  total h' n /\ base h' = base h /\ is_scalable h' = is_scalable h.
Proof.
  intros h n h' (S & N & T) B SC E. destruct (shape_even h S SC) as (m & Lm & Nm). pose proof (proj2 (proj2 S) SC) as (S1 & S2 & S3).
  rewrite (scale_high_once_eq h m Lm Nm) in E. injection E as <-. split; [|split; reflexivity].
  destruct (pairs_sum m (bins h) Lm N ltac:(lia)) as [P1 P2].
  split; [|split]; cbn [bins].
  + split; [cbn [bins num_bins]; rewrite app_length, repeat_length, (pairs_length m) by exact Lm; lia|split; [cbn [num_bins]; lia|]].
    intros _. split; [exact S1|split; [exact S2|exact S3]].
  + apply Forall_app. split; [exact P2|apply nonneg_repeat0].
  + rewrite zlsum_app, zlsum_repeat0. lia.
Qed.
Lemma scale_low_total : forall fuel h v n h', total h n -> n < 2 ^ 64 -> is_scalable h = true -> scale_low A fuel h v = Ok h' ->
  total h' n /\ base h' = base h /\ is_scalable h' = is_scalable h.
Proof.
  induction fuel as [|f IH]; intros h v n h' T B SC E; cbn [scale_low] in E; destruct (nlt v (bin_low h)); try discriminate; try (injection E as <-; auto; fail).
  destruct (scale_low_once A h) as [h1| | |] eqn:E1; try discriminate. cbn [bind] in E.
  destruct (low_once_total h n h1 T B SC E1) as (T1 & B1 & S1). destruct (IH h1 v n h' T1 B ltac:(congruence) E) as (T2 & B2 & S2). repeat split; try apply T2; congruence.
Qed.
Lemma scale_high_total : forall fuel h v n h', total h n -> n < 2 ^ 64 -> is_scalable h = true -> scale_high A fuel h v = Ok h' ->
  total h' n /\ base h' = base h /\ is_scalable h' = is_scalable h.
Proof.
  induction fuel as [|f IH]; intros h v n h' T B SC E; cbn [scale_high] in E; destruct (nle (bin_high h) v); try discriminate; try (injection E as <-; auto; fail).
  destruct (scale_high_once A h) as [h1| | |] eqn:E1; try discriminate. cbn [bind] in E.
  destruct (high_once_total h n h1 T B SC E1) as (T1 & B1 & S1). destruct (IH h1 v n h' T1 B ltac:(congruence) E) as (T2 & B2 & S2). repeat split; try apply T2; congruence.
Qed.
Lemma zput_inv : forall {X} (l l' : list X) i x, zput l i x = Ok l' -> exists k, i = Z.of_nat k /\ (k < length l)%nat /\ l' = upd l k x.
Proof.
  intros X l l' i x E. unfold zput in E. destruct (0 <=? i) eqn:P; [|discriminate]. unfold put in E.
  destruct (Z.to_nat i <? length l)%nat eqn:Q; [|discriminate]. injection E as <-. exists (Z.to_nat i). repeat split; lia.
Qed.
Lemma zget_inv : forall {X} (l : list X) i x, zget l i = Ok x -> exists k, i = Z.of_nat k /\ nth_error l k = Some x.
Proof.
  intros X l i x E. unfold zget in E. destruct (0 <=? i) eqn:P; [|discriminate]. unfold get in E.
  destruct (nth_error l (Z.to_nat i)) eqn:Q; [|discriminate]. injection E as <-. exists (Z.to_nat i). split; [lia|exact Q].
Qed.
Lemma upd_sum : forall l k c d, nth_error l k = Some c -> zlsum (upd l k d) = zlsum l - c + d.
Proof.
  induction l as [|a l IH]; intros [|k] c d E; cbn in E; try discriminate.
  - injection E as ->. cbn. lia.
  - cbn. fold (zlsum (upd l k d)) (zlsum l). rewrite (IH k c d E). lia.
Qed.
Lemma upd_nonneg : forall l k d, nonneg l -> 0 <= d -> nonneg (upd l k d).
Proof. induction l as [|a l IH]; intros [|k] d N D; inversion_clear N; cbn; constructor; auto. now apply IH. Qed.
Lemma nonneg_le : forall l k c, nonneg l -> nth_error l k = Some c -> 0 <= c <= zlsum l.
Proof.
  induction l as [|a l IH]; intros [|k] c N E; cbn in E; try discriminate; inversion_clear N; cbn; fold (zlsum l).
  - injection E as ->. pose proof (nonneg_sum l H0). lia.
  - specialize (IH k c H0 E). lia.
Qed.
Lemma h_add_total : forall fuel h v n h', total h n -> n + 1 < 2 ^ 64 -> h_add A fuel h v = Ok h' ->
  total h' (n + 1) /\ base h' = st_add A (base h) v.
Proof.
  intros fuel h v n h' T B E. unfold h_add in E. set (h0 := with_base A h (st_add A (base h) v)) in *.
  assert (T0 : total h0 n) by exact T.
  destruct (grow A h0 v) as [h1| | |] eqn:E1; try discriminate. cbn [bind] in E. destruct (grow_total h0 v n h1 T0 E1) as (T1 & B1).
  destruct (scale A fuel h1 v) as [h2| | |] eqn:E2; try discriminate. cbn [bind] in E.
  assert (T2 : total h2 n /\ base h2 = base h1).
  { unfold scale in E2. destruct (is_scalable h1) eqn:SC; cbn [andb] in E2; [|injection E2 as <-; auto].
    destruct (_ || _); [|injection E2 as <-; auto].
    destruct (scale_low A fuel h1 v) as [h3| | |] eqn:E3; try discriminate. cbn [bind] in E2.
    destruct (scale_low_total fuel h1 v n h3 T1 ltac:(lia) SC E3) as (T3 & B3 & S3).
    destruct (scale_high_total fuel h3 v n h2 T3 ltac:(lia) ltac:(congruence) E2) as (T4 & B4 & S4). split; [exact T4|congruence]. }
  destruct T2 as (T2 & B2). destruct (sampleBin A h2 v) as [bin| | |]; try discriminate. cbn [bind] in E.
  destruct (zget (bins h2) bin) as [c| | |] eqn:Eg; try discriminate. cbn [bind] in E.
  destruct (zput (bins h2) bin (u64 (c + 1))) as [b| | |] eqn:Ep; try discriminate. cbn [bind] in E. injection E as <-.
  apply zget_inv in Eg as (k & -> & Eg). apply zput_inv in Ep as (k' & Ek & Lk & ->). apply Nat2Z.inj in Ek. subst k'.
  destruct T2 as (S & N & Sum). pose proof (nonneg_le _ _ _ N Eg) as C.
  assert (U : u64 (c + 1) = c + 1) by (unfold u64; apply Z.mod_small; lia). split; [|cbn [with_bins base]; rewrite B2, B1; reflexivity].
  split; [|split]; cbn [with_bins bins].
  - destruct S as (S1 & S2 & S3). split; [cbn [with_bins bins num_bins]; rewrite length_upd; exact S1|split; [exact S2|exact S3]].
  - rewrite U. apply upd_nonneg; [exact N|lia].
  - rewrite U, (upd_sum _ _ _ _ Eg). lia.
Qed.
Lemma h_adds_total : forall fuel l h n h', total h n -> n + Z.of_nat (length l) < 2 ^ 64 -> h_adds A fuel h l = Ok h' ->
  total h' (n + Z.of_nat (length l)) /\ base h' = fold_left (st_add A) l (base h).
Proof.
  induction l as [|v l IH]; intros h n h' T B E; cbn [h_adds] in E.
  - injection E as <-. cbn. rewrite Z.add_0_r. auto.
  - destruct (h_add A fuel h v) as [h1| | |] eqn:E1; try discriminate. cbn [bind] in E. cbn [length] in B.
    destruct (h_add_total fuel h v n h1 T ltac:(lia) E1) as (T1 & B1). destruct (IH h1 (n + 1) h' T1 ltac:(lia) E) as (T2 & B2).
    split; [|cbn [fold_left]; congruence]. replace (n + Z.of_nat (length (v :: l))) with (n + 1 + Z.of_nat (length l)) by (cbn [length]; lia). exact T2.
Qed.
Lemma h_new_total : forall bins_in low high s g h, bins_in < 2 ^ 31 -> h_new A bins_in low high s g = Ok h -> total h 0 /\ base h = st_new A.
Proof.
  intros bins_in low high s g h B E. unfold h_new in E. destruct (nle low high); cbn [invariant bind] in E; [|discriminate].
  destruct (0 <? bins_in) eqn:P; cbn [invariant bind] in E; [|discriminate].
  destruct (negb (g && s)) eqn:GS; cbn [invariant bind] in E; [|discriminate]. apply Ok_inj in E. subst h. split; [|reflexivity].
  assert (U : u32 (bins_in + 1) = bins_in + 1) by (unfold u32; apply Z.mod_small; lia).
  unfold h_reset. cbn [base num_bins bin_high bin_low bins is_scalable is_growable]. rewrite !U, repeat_length.
  split; [|split]; cbn [bins].
  - split; [cbn [bins num_bins]; apply repeat_length|split; cbn [num_bins is_scalable is_growable]].
    + Z.to_euclidean_division_equations; lia.
    + intros Es. split; [destruct s, g; try discriminate; reflexivity|split].
      * exists ((bins_in + 1) / 2). lia.
      * Z.to_euclidean_division_equations; lia.
  - apply nonneg_repeat0.
  - apply zlsum_repeat0.
Qed.
End G.
