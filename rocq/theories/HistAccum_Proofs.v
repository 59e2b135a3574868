(** Proofs about the accumulating histogram. *)
From Coq Require Import List ZArith QArith Qround Bool Lqa Lia ZifyBool ZifyNat Setoid.
From Verif Require Import Common CommonFacts Arith Stats_Spec Stats_Model Stats_Proofs Histogram_Spec Histogram_Model Histogram_Arr Histogram_Proofs
  HistAccum_Spec HistAccum_Model.
Import ListNotations.
Local Open Scope Z_scope.

(** The merging loops on an array of anything. *)
Section Gen.
Variable X : Type.
Variable op : X -> X -> X.
Variable z0 : X.
Fixpoint gmerge_up (fuel : nat) (b : list X) (i j : Z) : res (list X * Z) :=
  if 0 <=? j then
    match fuel with
    | O => Fuel
    | S f =>
        let! x := zget b j in let! y := zget b (j + 1) in
        let! b' := zput b i (op x y) in gmerge_up f b' (i - 1) (j - 2)
    end
  else Ok (b, i).
Fixpoint gzero_down (fuel : nat) (b : list X) (i : Z) : res (list X) :=
  if 0 <=? i then
    match fuel with
    | O => Fuel
    | S f => let! b' := zput b i z0 in gzero_down f b' (i - 1)
    end
  else Ok b.
Fixpoint gmerge_down (fuel : nat) (half : Z) (b : list X) (i j : Z) : res (list X * Z) :=
  if i <? half then
    match fuel with
    | O => Fuel
    | S f =>
        let! x := zget b j in let! y := zget b (j + 1) in
        let! b' := zput b i (op x y) in gmerge_down f half b' (i + 1) (j + 2)
    end
  else Ok (b, i).
Fixpoint gzero_up (fuel : nat) (n : Z) (b : list X) (i : Z) : res (list X) :=
  if i <? n then
    match fuel with
    | O => Fuel
    | S f => let! b' := zput b i z0 in gzero_up f n b' (i + 1)
    end
  else Ok b.
Fixpoint gpairs (l : list X) : list X :=
  match l with
  | a :: b :: r => op a b :: gpairs r
  | _ => []
  end.
Lemma gpairs_app : forall x a b, Nat.Even (length x) -> gpairs (x ++ [a; b]) = gpairs x ++ [op a b].
Proof.
  intros x a b [m E]. revert x E. induction m as [|m IH]; intros x E.
  - destruct x; [reflexivity|cbn in E; lia].
  - destruct x as [|p [|q x]]; cbn in E; try lia. cbn [app gpairs]. rewrite IH by lia. reflexivity.
Qed.
Lemma gpairs_length : forall m x, length x = (2 * m)%nat -> length (gpairs x) = m.
Proof.
  induction m as [|m IH]; intros x E.
  - destruct x; [reflexivity|cbn in E; lia].
  - destruct x as [|p [|q x]]; cbn in E; try lia. cbn [gpairs length]. rewrite IH; lia.
Qed.
Lemma gmerge_up_spec : forall m x y z fuel, length x = (2 * m)%nat -> (m <= fuel)%nat ->
  exists y', gmerge_up fuel (x ++ y ++ z) (Z.of_nat (2 * m + length y) - 1) (Z.of_nat (2 * m) - 2)
             = Ok (y' ++ gpairs x ++ z, Z.of_nat (length y') - 1) /\ length y' = (m + length y)%nat.
Proof.
  induction m as [|m IH]; intros x y z fuel Lx Lf.
  - destruct x; [|cbn in Lx; lia]. exists y. cbn [app gpairs]. split; [|lia]. unfold gmerge_up.
    destruct fuel; replace (0 <=? _) with false by lia; repeat f_equal; lia.
  - destruct fuel as [|fuel]; [lia|].
    destruct (split_last x (S (2 * m))) as (x1 & c & -> & L1); [lia|].
    destruct (split_last x1 (2 * m)) as (x2 & a & -> & L2); [lia|].
    destruct (split_last ([a; c] ++ y) (S (length y))) as (y1 & d & Ey & Ly); [cbn; lia|].
    destruct (IH x2 y1 (op a c :: z) fuel) as (y' & E & L); [lia|lia|].
    exists y'. split; [|rewrite L, Ly; lia].
    cbn [gmerge_up]. replace (0 <=? Z.of_nat (2 * S m) - 2) with true by lia.
    rewrite <- !app_assoc. cbn [app].
    rewrite zget_app by lia. cbn [bind].
    replace (x2 ++ a :: c :: y ++ z) with ((x2 ++ [a]) ++ c :: y ++ z) by (rewrite <- app_assoc; reflexivity).
    rewrite zget_app by (rewrite app_length; cbn [length]; lia).
    cbn [bind].
    replace ((x2 ++ [a]) ++ c :: y ++ z) with ((x2 ++ y1) ++ d :: z).
    2: { rewrite <- !app_assoc. f_equal. cbn [app]. change (d :: z) with ([d] ++ z). rewrite app_assoc, <- Ey. reflexivity. }
    rewrite zput_app by (rewrite app_length; lia). cbn [bind].
    rewrite <- !app_assoc.
    replace (Z.of_nat (2 * S m + length y) - 1 - 1) with (Z.of_nat (2 * m + length y1) - 1) by lia.
    replace (Z.of_nat (2 * S m) - 2 - 2) with (Z.of_nat (2 * m) - 2) by lia.
    rewrite E, gpairs_app by (exists m; exact L2). rewrite <- app_assoc. reflexivity.
Qed.
Lemma gzero_down_spec : forall y z fuel, (length y <= fuel)%nat ->
  gzero_down fuel (y ++ z) (Z.of_nat (length y) - 1) = Ok (repeat z0 (length y) ++ z).
Proof.
  intros y. remember (length y) as n eqn:E. revert y E. induction n as [|n IH]; intros y E z fuel Lf.
  - destruct y; [|discriminate]. unfold gzero_down. destruct fuel; cbn; reflexivity.
  - destruct fuel as [|fuel]; [lia|]. destruct (split_last y n) as (y1 & a & -> & L); [lia|].
    cbn [gzero_down]. replace (0 <=? Z.of_nat (S n) - 1) with true by lia.
    rewrite <- app_assoc. cbn [app]. rewrite zput_app by lia. cbn [bind].
    replace (Z.of_nat (S n) - 1 - 1) with (Z.of_nat n - 1) by lia.
    rewrite (IH y1) by lia. f_equal. change (S n) with (1 + n)%nat. rewrite Nat.add_comm, repeat_app, <- app_assoc. reflexivity.
Qed.
Lemma gmerge_down_spec : forall m w y x fuel, length x = (2 * m)%nat -> (m <= fuel)%nat -> length y = length w ->
  exists y', gmerge_down fuel (Z.of_nat (length w + m)) (w ++ y ++ x) (Z.of_nat (length w)) (Z.of_nat (2 * length w))
             = Ok (w ++ gpairs x ++ y', Z.of_nat (length w + m)) /\ length y' = (length w + m)%nat.
Proof.
  induction m as [|m IH]; intros w y x fuel Lx Lf Ly.
  - destruct x; [|cbn in Lx; lia]. exists y. cbn [gpairs app]. rewrite app_nil_r, Nat.add_0_r. split; [|exact Ly].
    destruct fuel; cbn [gmerge_down]; rewrite Z.ltb_irrefl; reflexivity.
  - destruct fuel as [|fuel]; [lia|]. destruct x as [|a [|c x]]; cbn in Lx; try lia.
    destruct (y ++ [a; c]) as [|d y1] eqn:Ey; [destruct y; discriminate|].
    assert (Ly1 : length y1 = S (length y)) by (apply (f_equal (@length X)) in Ey; rewrite app_length in Ey; cbn in Ey; lia).
    destruct (IH (w ++ [op a c]) y1 x fuel) as (y' & E & L); [lia|lia|rewrite app_length; cbn; lia|].
    exists y'. rewrite app_length in E, L. cbn [length] in E, L. split; [|lia].
    cbn [gmerge_down]. replace (Z.of_nat (length w) <? _) with true by lia.
    replace (w ++ y ++ a :: c :: x) with ((w ++ y) ++ a :: c :: x) by now rewrite <- app_assoc.
    rewrite zget_app by (rewrite app_length; lia). cbn [bind].
    replace ((w ++ y) ++ a :: c :: x) with ((w ++ y ++ [a]) ++ c :: x) by (rewrite <- !app_assoc; reflexivity).
    rewrite zget_app by (rewrite !app_length; cbn [length]; lia). cbn [bind].
    replace ((w ++ y ++ [a]) ++ c :: x) with (w ++ d :: y1 ++ x).
    2: { rewrite <- !app_assoc. f_equal. change (d :: y1 ++ x) with ((d :: y1) ++ x). rewrite <- Ey, <- app_assoc. reflexivity. }
    rewrite zput_app by reflexivity. cbn [bind].
    replace (w ++ op a c :: y1 ++ x) with ((w ++ [op a c]) ++ y1 ++ x) by (rewrite <- app_assoc; reflexivity).
    replace (Z.of_nat (length w + S m)) with (Z.of_nat (length w + 1 + m)) by lia.
    replace (Z.of_nat (length w) + 1) with (Z.of_nat (length w + 1)) by lia.
    replace (Z.of_nat (2 * length w) + 2) with (Z.of_nat (2 * (length w + 1))) by lia.
    rewrite E. cbn [gpairs]. rewrite <- app_assoc. reflexivity.
Qed.
Lemma gzero_up_spec : forall y w fuel, (length y <= fuel)%nat ->
  gzero_up fuel (Z.of_nat (length w + length y)) (w ++ y) (Z.of_nat (length w)) = Ok (w ++ repeat z0 (length y)).
Proof.
  induction y as [|a y IH]; intros w fuel Lf.
  - cbn [length repeat]. rewrite Nat.add_0_r. destruct fuel; cbn [gzero_up]; now rewrite Z.ltb_irrefl.
  - cbn [length] in *. destruct fuel as [|fuel]; [lia|]. cbn [gzero_up]. replace (Z.of_nat (length w) <? _) with true by lia.
    rewrite zput_app by reflexivity. cbn [bind]. specialize (IH (w ++ [z0]) fuel). rewrite app_length in IH. cbn [length] in IH.
    replace (w ++ z0 :: y) with ((w ++ [z0]) ++ y) by (rewrite <- app_assoc; reflexivity).
    replace (Z.of_nat (length w + S (length y))) with (Z.of_nat (length w + 1 + length y)) by lia.
    replace (Z.of_nat (length w) + 1) with (Z.of_nat (length w + 1)) by lia.
    rewrite IH by lia. cbn [repeat]. rewrite <- app_assoc. reflexivity.
Qed.

End Gen.

Section G.
Variable A : arith.
Local Notation accum := (accum A).
Local Notation uadd := (fun x y : Z => u64 (x + y)).
Local Notation gup := (gmerge_up A nadd).
Local Notation gdown := (gmerge_down A nadd).

Lemma merge_up2_eq : forall f b v i j b' i' v' k, merge_up f b i j = Ok (b', i') -> gup f v i j = Ok (v', k) ->
  merge_up2 A f b v i j = Ok (b', v', i').
Proof.
  induction f as [|f IH]; intros b v i j b' i' v' k E F; cbn [merge_up gmerge_up merge_up2] in *; destruct (0 <=? j); try congruence.
  destruct (zget b j) as [x| | |]; try discriminate. cbn [bind] in *. destruct (zget b (j + 1)) as [y| | |]; try discriminate. cbn [bind] in *.
  destruct (zput b i (u64 (x + y))) as [b1| | |]; try discriminate. cbn [bind] in *.
  destruct (zget v j) as [p| | |]; try discriminate. cbn [bind] in *. destruct (zget v (j + 1)) as [q| | |]; try discriminate. cbn [bind] in *.
  destruct (zput v i (nadd p q)) as [v1| | |]; try discriminate. cbn [bind] in *. now apply (IH b1 v1 _ _ b' i' v' k).
Qed.
Lemma merge_down2_eq : forall f h b v i j b' i' v' k, merge_down f h b i j = Ok (b', i') -> gdown f h v i j = Ok (v', k) ->
  merge_down2 A f h b v i j = Ok (b', v', i').
Proof.
  induction f as [|f IH]; intros h b v i j b' i' v' k E F; cbn [merge_down gmerge_down merge_down2] in *; destruct (i <? h); try congruence.
  destruct (zget b j) as [x| | |]; try discriminate. cbn [bind] in *. destruct (zget b (j + 1)) as [y| | |]; try discriminate. cbn [bind] in *.
  destruct (zput b i (u64 (x + y))) as [b1| | |]; try discriminate. cbn [bind] in *.
  destruct (zget v j) as [p| | |]; try discriminate. cbn [bind] in *. destruct (zget v (j + 1)) as [q| | |]; try discriminate. cbn [bind] in *.
  destruct (zput v i (nadd p q)) as [v1| | |]; try discriminate. cbn [bind] in *. now apply (IH h b1 v1 _ _ b' i' v' k).
Qed.
Lemma zero_down2_eq : forall f b v i b' v', zero_down f b i = Ok b' -> gzero_down A (of_int 0) f v i = Ok v' -> zero_down2 A f b v i = Ok (b', v').
Proof.
  induction f as [|f IH]; intros b v i b' v' E F; cbn [zero_down gzero_down zero_down2] in *; destruct (0 <=? i); try congruence.
  destruct (zput b i 0) as [b1| | |]; try discriminate. cbn [bind] in *. destruct (zput v i (of_int 0)) as [v1| | |]; try discriminate. cbn [bind] in *. now apply IH.
Qed.
Lemma zero_up2_eq : forall f n b v i b' v', zero_up f n b i = Ok b' -> gzero_up A (of_int 0) f n v i = Ok v' -> zero_up2 A f n b v i = Ok (b', v').
Proof.
  induction f as [|f IH]; intros n b v i b' v' E F; cbn [zero_up gzero_up zero_up2] in *; destruct (i <? n); try congruence.
  destruct (zput b i 0) as [b1| | |]; try discriminate. cbn [bind] in *. destruct (zput v i (of_int 0)) as [v1| | |]; try discriminate. cbn [bind] in *. now apply IH.
Qed.

Lemma a_low_once_eq : forall (a : accum) m, length (bins (counts a)) = (2 * m)%nat -> length (val_bins a) = (2 * m)%nat ->
  num_bins (counts a) = Z.of_nat (2 * m) -> (0 < m)%nat -> num_bins (counts a) <= 2 ^ 31 ->
  exists h, scale_low_once A (counts a) = Ok h /\ a_low_once A a = Ok (mkAccum h (repeat (of_int 0) m ++ gpairs A nadd (val_bins a))).
Proof.
  intros a m L LV N P B. rewrite (scale_low_once_eq A (counts a) m L N P B). eexists. split; [reflexivity|]. unfold a_low_once.
  set (h := counts a) in *.
  replace (s32 (num_bins h - 1)) with (num_bins h - 1) by (unfold s32, u32; rewrite Z.mod_small by lia; destruct (num_bins h - 1 <? 2 ^ 31) eqn:E; lia).
  replace (s32 (num_bins h - 2)) with (num_bins h - 2) by (unfold s32, u32; rewrite Z.mod_small by lia; destruct (num_bins h - 2 <? 2 ^ 31) eqn:E; lia).
  destruct (merge_up_spec m (bins h) [] [] (length (bins h)) L ltac:(lia)) as (y' & E & Ly).
  rewrite !app_nil_r in E. cbn [length] in E, Ly. rewrite Nat.add_0_r in E, Ly.
  destruct (gmerge_up_spec A nadd (of_int 0) m (val_bins a) [] [] (length (bins h)) LV ltac:(lia)) as (z' & F & Lz).
  rewrite !app_nil_r in F. cbn [length] in F, Lz. rewrite Nat.add_0_r in F, Lz.
  rewrite N, (merge_up2_eq _ _ _ _ _ _ _ _ _ E F). cbn [bind].
  rewrite (zero_down2_eq _ _ _ _ (repeat 0 (length y') ++ pairs (bins h)) (repeat (of_int 0) (length z') ++ gpairs A nadd (val_bins a))).
  - cbn [bind]. now rewrite Ly, Lz.
  - apply zero_down_spec. lia.
  - rewrite Ly, <- Lz. apply (gzero_down_spec A nadd (of_int 0)). lia.
Qed.
Lemma a_high_once_eq : forall (a : accum) m, length (bins (counts a)) = (2 * m)%nat -> length (val_bins a) = (2 * m)%nat ->
  num_bins (counts a) = Z.of_nat (2 * m) ->
  exists h, scale_high_once A (counts a) = Ok h /\ a_high_once A a = Ok (mkAccum h (gpairs A nadd (val_bins a) ++ repeat (of_int 0) m)).
Proof.
  intros a m L LV N. rewrite (scale_high_once_eq A (counts a) m L N). eexists. split; [reflexivity|]. unfold a_high_once.
  set (h := counts a) in *.
  destruct (merge_down_spec m [] [] (bins h) (length (bins h)) L ltac:(lia) eq_refl) as (y' & E & Ly).
  destruct (gmerge_down_spec A nadd m [] [] (val_bins a) (length (bins h)) LV ltac:(lia) eq_refl) as (z' & F & Lz).
  cbn [length app Nat.add Nat.mul] in E, Ly, F, Lz. replace (num_bins h / 2) with (Z.of_nat m) by (rewrite N; Z.to_euclidean_division_equations; lia).
  change (Z.of_nat 0) with 0 in E, F. rewrite (merge_down2_eq _ _ _ _ _ _ _ _ _ _ E F). cbn [bind].
  pose proof (pairs_length m (bins h) L) as Lp. pose proof (zero_up_spec y' (pairs (bins h)) (length (bins h)) ltac:(lia)) as Z1.
  pose proof (gpairs_length A nadd m (val_bins a) LV) as Lq. pose proof (gzero_up_spec A nadd (of_int 0) z' (gpairs A nadd (val_bins a)) (length (bins h)) ltac:(lia)) as Z2.
  rewrite (zero_up2_eq _ _ _ _ _ (pairs (bins h) ++ repeat 0 (length y')) (gpairs A nadd (val_bins a) ++ repeat (of_int 0) (length z'))).
  - cbn [bind]. now rewrite Ly, Lz.
  - rewrite Lp, Ly in Z1. rewrite Ly. replace (num_bins h) with (Z.of_nat (m + m)) by lia. exact Z1.
  - rewrite Lq, Lz in Z2. rewrite Lz. replace (num_bins h) with (Z.of_nat (m + m)) by lia. exact Z2.
Qed.

(** The counts do not depend on the second array. *)
Lemma merge_up2_fst : forall f b v i j b' v' i', merge_up2 A f b v i j = Ok (b', v', i') -> merge_up f b i j = Ok (b', i') /\ length v' = length v.
Proof.
  induction f as [|f IH]; intros b v i j b' v' i' E; cbn [merge_up merge_up2] in *; destruct (0 <=? j); try discriminate; try (split; congruence).
  destruct (zget b j) as [x| | |]; try discriminate. cbn [bind] in *. destruct (zget b (j + 1)) as [y| | |]; try discriminate. cbn [bind] in *.
  destruct (zput b i (u64 (x + y))) as [b1| | |]; try discriminate. cbn [bind] in *.
  destruct (zget v j) as [p| | |]; try discriminate. cbn [bind] in *. destruct (zget v (j + 1)) as [q| | |]; try discriminate. cbn [bind] in *.
  destruct (zput v i (nadd p q)) as [v1| | |] eqn:Ev; try discriminate. cbn [bind] in *. destruct (IH _ _ _ _ _ _ _ E) as [E1 E2].
  split; [exact E1|]. apply zput_inv in Ev as (k & _ & _ & ->). now rewrite length_upd in E2.
Qed.
Lemma merge_down2_fst : forall f h b v i j b' v' i', merge_down2 A f h b v i j = Ok (b', v', i') -> merge_down f h b i j = Ok (b', i') /\ length v' = length v.
Proof.
  induction f as [|f IH]; intros h b v i j b' v' i' E; cbn [merge_down merge_down2] in *; destruct (i <? h); try discriminate; try (split; congruence).
  destruct (zget b j) as [x| | |]; try discriminate. cbn [bind] in *. destruct (zget b (j + 1)) as [y| | |]; try discriminate. cbn [bind] in *.
  destruct (zput b i (u64 (x + y))) as [b1| | |]; try discriminate. cbn [bind] in *.
  destruct (zget v j) as [p| | |]; try discriminate. cbn [bind] in *. destruct (zget v (j + 1)) as [q| | |]; try discriminate. cbn [bind] in *.
  destruct (zput v i (nadd p q)) as [v1| | |] eqn:Ev; try discriminate. cbn [bind] in *. destruct (IH _ _ _ _ _ _ _ _ E) as [E1 E2].
  split; [exact E1|]. apply zput_inv in Ev as (k & _ & _ & ->). now rewrite length_upd in E2.
Qed.
Lemma zero_down2_fst : forall f b v i b' v', zero_down2 A f b v i = Ok (b', v') -> zero_down f b i = Ok b' /\ length v' = length v.
Proof.
  induction f as [|f IH]; intros b v i b' v' E; cbn [zero_down zero_down2] in *; destruct (0 <=? i); try discriminate; try (split; congruence).
  destruct (zput b i 0) as [b1| | |]; try discriminate. cbn [bind] in *. destruct (zput v i (of_int 0)) as [v1| | |] eqn:Ev; try discriminate. cbn [bind] in *.
  destruct (IH _ _ _ _ _ E) as [E1 E2]. split; [exact E1|]. apply zput_inv in Ev as (k & _ & _ & ->). now rewrite length_upd in E2.
Qed.
Lemma zero_up2_fst : forall f n b v i b' v', zero_up2 A f n b v i = Ok (b', v') -> zero_up f n b i = Ok b' /\ length v' = length v.
Proof.
  induction f as [|f IH]; intros n b v i b' v' E; cbn [zero_up zero_up2] in *; destruct (i <? n); try discriminate; try (split; congruence).
  destruct (zput b i 0) as [b1| | |]; try discriminate. cbn [bind] in *. destruct (zput v i (of_int 0)) as [v1| | |] eqn:Ev; try discriminate. cbn [bind] in *.
  destruct (IH _ _ _ _ _ _ E) as [E1 E2]. split; [exact E1|]. apply zput_inv in Ev as (k & _ & _ & ->). now rewrite length_upd in E2.
Qed.
(** [h] is the histogram of [a] up to the statistics. *)
Definition like (a : accum) (h : hist A) : Prop := h = with_base A (counts a) (base h).
Lemma low_once_like : forall a h a', like a h -> a_low_once A a = Ok a' -> exists h', scale_low_once A h = Ok h' /\ like a' h' /\
  base h' = base h /\ base (counts a') = base (counts a) /\ length (val_bins a') = length (val_bins a) /\ is_growable h' = is_growable h.
Proof.
  intros a h a' L E. unfold like in L. unfold a_low_once in E. rewrite L. unfold scale_low_once. cbn [with_base bin_low bin_high bin_width bins num_bins is_scalable is_growable base].
  destruct (merge_up2 A _ _ _ _ _) as [[[b v] i]| | |] eqn:E1; try discriminate. cbn [bind] in E. apply merge_up2_fst in E1 as [-> L1]. cbn [bind].
  destruct (zero_down2 A _ _ _ _) as [[b' v']| | |] eqn:E2; try discriminate. cbn [bind] in E. apply zero_down2_fst in E2 as [-> L2]. cbn [bind].
  apply Ok_inj in E. subst a'. eexists. split; [reflexivity|]. split; [reflexivity|]. cbn [counts base val_bins is_growable]. repeat split. congruence.
Qed.
Lemma high_once_like : forall a h a', like a h -> a_high_once A a = Ok a' -> exists h', scale_high_once A h = Ok h' /\ like a' h' /\
  base h' = base h /\ base (counts a') = base (counts a) /\ length (val_bins a') = length (val_bins a) /\ is_growable h' = is_growable h.
Proof.
  intros a h a' L E. unfold like in L. unfold a_high_once in E. rewrite L. unfold scale_high_once. cbn [with_base bin_low bin_high bin_width bins num_bins is_scalable is_growable base].
  destruct (merge_down2 A _ _ _ _ _ _) as [[[b v] i]| | |] eqn:E1; try discriminate. cbn [bind] in E. apply merge_down2_fst in E1 as [-> L1]. cbn [bind].
  destruct (zero_up2 A _ _ _ _ _) as [[b' v']| | |] eqn:E2; try discriminate. cbn [bind] in E. apply zero_up2_fst in E2 as [-> L2]. cbn [bind].
  apply Ok_inj in E. subst a'. eexists. split; [reflexivity|]. split; [reflexivity|]. cbn [counts base val_bins is_growable]. repeat split. congruence.
Qed.
Lemma like_low : forall a h, like a h -> bin_low h = bin_low (counts a).
Proof. intros a h L. rewrite L. reflexivity. Qed.
Lemma like_high : forall a h, like a h -> bin_high h = bin_high (counts a).
Proof. intros a h L. rewrite L. reflexivity. Qed.
Lemma low_like : forall f a h a' x, like a h -> a_low A f a x = Ok a' -> exists h', scale_low A f h x = Ok h' /\ like a' h' /\
  base h' = base h /\ base (counts a') = base (counts a) /\ length (val_bins a') = length (val_bins a) /\ is_growable h' = is_growable h.
Proof.
  induction f as [|f IH]; intros a h a' x L E; cbn [a_low scale_low] in *; rewrite (like_low a h L); destruct (nlt x (bin_low (counts a))); try discriminate;
    try (apply Ok_inj in E; subst a'; exists h; repeat split; exact L).
  destruct (a_low_once A a) as [a1| | |] eqn:E1; try discriminate. cbn [bind] in E.
  destruct (low_once_like a h a1 L E1) as (h1 & -> & L1 & B1 & B2 & V1 & G1). destruct (IH a1 h1 a' x L1 E) as (h' & O & L' & B1' & B2' & V' & G').
  exists h'. cbn [bind]. split; [exact O|]. split; [exact L'|]. repeat split; congruence.
Qed.
Lemma high_like : forall f a h a' x, like a h -> a_high A f a x = Ok a' -> exists h', scale_high A f h x = Ok h' /\ like a' h' /\
  base h' = base h /\ base (counts a') = base (counts a) /\ length (val_bins a') = length (val_bins a) /\ is_growable h' = is_growable h.
Proof.
  induction f as [|f IH]; intros a h a' x L E; cbn [a_high scale_high] in *; rewrite (like_high a h L); destruct (nle (bin_high (counts a)) x); try discriminate;
    try (apply Ok_inj in E; subst a'; exists h; repeat split; exact L).
  destruct (a_high_once A a) as [a1| | |] eqn:E1; try discriminate. cbn [bind] in E.
  destruct (high_once_like a h a1 L E1) as (h1 & -> & L1 & B1 & B2 & V1 & G1). destruct (IH a1 h1 a' x L1 E) as (h' & O & L' & B1' & B2' & V' & G').
  exists h'. cbn [bind]. split; [exact O|]. split; [exact L'|]. repeat split; congruence.
Qed.
Lemma scale_like : forall f a h a' x, like a h -> a_scale A f a x = Ok a' -> exists h', scale A f h x = Ok h' /\ like a' h' /\
  base h' = base h /\ base (counts a') = base (counts a) /\ length (val_bins a') = length (val_bins a) /\ is_growable h' = is_growable h.
Proof.
  intros f a h a' x L E. unfold a_scale, scale in *. rewrite (like_low a h L), (like_high a h L).
  replace (is_scalable h) with (is_scalable (counts a)) by (rewrite L; reflexivity).
  destruct (is_scalable (counts a) && _); [|apply Ok_inj in E; subst a'; exists h; repeat split; exact L].
  destruct (a_low A f a x) as [a1| | |] eqn:E1; try discriminate. cbn [bind] in E.
  destruct (low_like f a h a1 x L E1) as (h1 & -> & L1 & B1 & B2 & V1 & G1). destruct (high_like f a1 h1 a' x L1 E) as (h' & O & L' & B1' & B2' & V' & G').
  exists h'. cbn [bind]. split; [exact O|]. split; [exact L'|]. repeat split; congruence.
Qed.
Lemma add_like : forall f a h a' x d, like a h -> is_growable h = false -> a_add A f a x d = Ok a' -> exists h', h_add A f h x = Ok h' /\ like a' h' /\
  base (counts a') = st_add A (base (counts a)) d /\ length (val_bins a') = length (val_bins a) /\ is_growable h' = false.
Proof.
  intros f a h a' x d L G E. unfold a_add in E. cbn [counts val_bins] in E.
  set (a0 := mkAccum (with_base A (counts a) (st_add A (base (counts a)) d)) (val_bins a)) in *.
  unfold h_add. set (h0 := with_base A h (st_add A (base h) x)).
  assert (L0 : like a0 h0) by (unfold like, h0, a0; rewrite L; reflexivity).
  assert (GR : grow A h0 x = Ok h0) by (unfold grow; change (is_growable h0) with (is_growable h); rewrite G; reflexivity).
  rewrite GR. cbn [bind]. destruct (a_scale A f a0 x) as [a1| | |] eqn:E1; try discriminate. cbn [bind] in E.
  destruct (scale_like f a0 h0 a1 x L0 E1) as (h1 & O1 & L1 & B1 & B2 & V1 & G1). rewrite O1. cbn [bind].
  replace (sampleBin A h1 x) with (sampleBin A (counts a1) x) by (rewrite L1; reflexivity).
  destruct (sampleBin A (counts a1) x) as [bin| | |]; try discriminate. cbn [bind] in *.
  replace (bins h1) with (bins (counts a1)) by (rewrite L1; reflexivity).
  destruct (zget (bins (counts a1)) bin) as [c| | |]; try discriminate. cbn [bind] in *.
  destruct (zput (bins (counts a1)) bin (u64 (c + 1))) as [b| | |]; try discriminate. cbn [bind] in *.
  destruct (zget (val_bins a1) bin) as [s| | |]; try discriminate. cbn [bind] in *.
  destruct (zput (val_bins a1) bin (nadd s d)) as [v| | |] eqn:Ev; try discriminate. cbn [bind] in *. apply Ok_inj in E. subst a'.
  apply zput_inv in Ev as (k & _ & _ & ->).
  eexists. split; [reflexivity|]. split; [unfold like, with_bins, with_base; rewrite L1; reflexivity|].
  cbn [counts val_bins with_bins base is_growable]. rewrite length_upd. repeat split; [exact B2|exact V1|]. rewrite G1. exact G.
Qed.
Lemma adds_like : forall l f a h a', like a h -> is_growable h = false -> a_adds A f a l = Ok a' -> exists h', h_adds A f h (map fst l) = Ok h' /\ like a' h' /\
  base (counts a') = fold_left (st_add A) (map snd l) (base (counts a)) /\ length (val_bins a') = length (val_bins a).
Proof.
  induction l as [|[x d] l IH]; intros f a h a' L G E; cbn [a_adds h_adds map fst snd fold_left] in *.
  - apply Ok_inj in E. subst a'. exists h. repeat split; exact L.
  - destruct (a_add A f a x d) as [a1| | |] eqn:E1; try discriminate. cbn [bind] in E.
    destruct (add_like f a h a1 x d L G E1) as (h1 & -> & L1 & B1 & V1 & G1). cbn [bind].
    destruct (IH f a1 h1 a' L1 G1 E) as (h' & O & L' & B' & V'). exists h'. split; [exact O|]. split; [exact L'|]. split; [congruence|congruence].
Qed.

(** Conversely: where the plain histogram succeeds, so does the accumulating one. *)
Definition fits (a : accum) : Prop := length (val_bins a) = length (bins (counts a)).
Lemma zget_len : forall {X Y} (l : list X) (m : list Y) i x, length m = length l -> zget l i = Ok x -> exists y, zget m i = Ok y.
Proof.
  intros X Y l m i x L E. apply zget_inv in E as (k & -> & E). apply nth_error_lt in E. destruct (get_lt m k ltac:(lia)) as (y & _ & G).
  exists y. unfold zget. replace (0 <=? Z.of_nat k) with true by lia. now rewrite Nat2Z.id.
Qed.
Lemma zput_len : forall {X Y} (l l' : list X) (m : list Y) i x y, length m = length l -> zput l i x = Ok l' ->
  exists m', zput m i y = Ok m' /\ length m' = length l'.
Proof.
  intros X Y l l' m i x y L E. apply zput_inv in E as (k & -> & Lk & ->). exists (upd m k y). unfold zput. replace (0 <=? Z.of_nat k) with true by lia.
  rewrite Nat2Z.id, put_ok by lia. split; [reflexivity|]. now rewrite !length_upd.
Qed.
Lemma merge_up2_ok : forall f b v i j b' i', length v = length b -> merge_up f b i j = Ok (b', i') ->
  exists v', merge_up2 A f b v i j = Ok (b', v', i') /\ length v' = length b'.
Proof.
  induction f as [|f IH]; intros b v i j b' i' L E; cbn [merge_up merge_up2] in *; destruct (0 <=? j); try discriminate;
    try (exists v; split; congruence).
  destruct (zget b j) as [x| | |] eqn:E1; try discriminate. destruct (zget_len b v j x L E1) as (p & ->). cbn [bind] in *.
  destruct (zget b (j + 1)) as [y| | |] eqn:E2; try discriminate. destruct (zget_len b v (j + 1) y L E2) as (q & ->). cbn [bind] in *.
  destruct (zput b i (u64 (x + y))) as [b1| | |] eqn:E3; try discriminate. destruct (zput_len b b1 v i _ (nadd p q) L E3) as (v1 & -> & L1). cbn [bind] in *.
  now apply IH.
Qed.
Lemma merge_down2_ok : forall f h b v i j b' i', length v = length b -> merge_down f h b i j = Ok (b', i') ->
  exists v', merge_down2 A f h b v i j = Ok (b', v', i') /\ length v' = length b'.
Proof.
  induction f as [|f IH]; intros h b v i j b' i' L E; cbn [merge_down merge_down2] in *; destruct (i <? h); try discriminate;
    try (exists v; split; congruence).
  destruct (zget b j) as [x| | |] eqn:E1; try discriminate. destruct (zget_len b v j x L E1) as (p & ->). cbn [bind] in *.
  destruct (zget b (j + 1)) as [y| | |] eqn:E2; try discriminate. destruct (zget_len b v (j + 1) y L E2) as (q & ->). cbn [bind] in *.
  destruct (zput b i (u64 (x + y))) as [b1| | |] eqn:E3; try discriminate. destruct (zput_len b b1 v i _ (nadd p q) L E3) as (v1 & -> & L1). cbn [bind] in *.
  now apply IH.
Qed.
Lemma zero_down2_ok : forall f b v i b', length v = length b -> zero_down f b i = Ok b' ->
  exists v', zero_down2 A f b v i = Ok (b', v') /\ length v' = length b'.
Proof.
  induction f as [|f IH]; intros b v i b' L E; cbn [zero_down zero_down2] in *; destruct (0 <=? i); try discriminate;
    try (exists v; split; congruence).
  destruct (zput b i 0) as [b1| | |] eqn:E3; try discriminate. destruct (zput_len b b1 v i _ (of_int 0 : A) L E3) as (v1 & -> & L1). cbn [bind] in *.
  now apply IH.
Qed.
Lemma zero_up2_ok : forall f n b v i b', length v = length b -> zero_up f n b i = Ok b' ->
  exists v', zero_up2 A f n b v i = Ok (b', v') /\ length v' = length b'.
Proof.
  induction f as [|f IH]; intros n b v i b' L E; cbn [zero_up zero_up2] in *; destruct (i <? n); try discriminate;
    try (exists v; split; congruence).
  destruct (zput b i 0) as [b1| | |] eqn:E3; try discriminate. destruct (zput_len b b1 v i _ (of_int 0 : A) L E3) as (v1 & -> & L1). cbn [bind] in *.
  now apply IH.
Qed.
Lemma low_once_conv : forall a h h', like a h -> fits a -> scale_low_once A h = Ok h' -> exists a', a_low_once A a = Ok a' /\ like a' h' /\ fits a'.
Proof.
  intros a h h' L LV E. unfold like in L. unfold fits in *. unfold a_low_once. rewrite L in E. unfold scale_low_once in E.
  cbn [with_base bin_low bin_high bin_width bins num_bins is_scalable is_growable base] in E.
  destruct (merge_up _ _ _ _) as [[b i]| | |] eqn:E1; try discriminate. cbn [bind] in E. apply (merge_up2_ok _ _ (val_bins a)) in E1 as (v1 & -> & L1); [|exact LV].
  cbn [bind]. destruct (zero_down _ _ _) as [b2| | |] eqn:E2; try discriminate. cbn [bind] in E. apply (zero_down2_ok _ _ v1) in E2 as (v2 & -> & L2); [|exact L1].
  cbn [bind]. apply Ok_inj in E. subst h'. eexists. split; [reflexivity|]. split; [reflexivity|exact L2].
Qed.
Lemma high_once_conv : forall a h h', like a h -> fits a -> scale_high_once A h = Ok h' -> exists a', a_high_once A a = Ok a' /\ like a' h' /\ fits a'.
Proof.
  intros a h h' L LV E. unfold like in L. unfold fits in *. unfold a_high_once. rewrite L in E. unfold scale_high_once in E.
  cbn [with_base bin_low bin_high bin_width bins num_bins is_scalable is_growable base] in E.
  destruct (merge_down _ _ _ _ _) as [[b i]| | |] eqn:E1; try discriminate. cbn [bind] in E. apply (merge_down2_ok _ _ _ (val_bins a)) in E1 as (v1 & -> & L1); [|exact LV].
  cbn [bind]. destruct (zero_up _ _ _ _) as [b2| | |] eqn:E2; try discriminate. cbn [bind] in E. apply (zero_up2_ok _ _ _ v1) in E2 as (v2 & -> & L2); [|exact L1].
  cbn [bind]. apply Ok_inj in E. subst h'. eexists. split; [reflexivity|]. split; [reflexivity|exact L2].
Qed.
Lemma low_conv : forall f a h h' x, like a h -> fits a -> scale_low A f h x = Ok h' -> exists a', a_low A f a x = Ok a' /\ like a' h' /\ fits a'.
Proof.
  induction f as [|f IH]; intros a h h' x L LV E; cbn [a_low scale_low] in *; rewrite (like_low a h L) in E; destruct (nlt x (bin_low (counts a))); try discriminate;
    try (apply Ok_inj in E; subst h'; exists a; repeat split; assumption).
  destruct (scale_low_once A h) as [h1| | |] eqn:E1; try discriminate. cbn [bind] in E.
  destruct (low_once_conv a h h1 L LV E1) as (a1 & -> & L1 & V1). cbn [bind]. now apply (IH a1 h1).
Qed.
Lemma high_conv : forall f a h h' x, like a h -> fits a -> scale_high A f h x = Ok h' -> exists a', a_high A f a x = Ok a' /\ like a' h' /\ fits a'.
Proof.
  induction f as [|f IH]; intros a h h' x L LV E; cbn [a_high scale_high] in *; rewrite (like_high a h L) in E; destruct (nle (bin_high (counts a)) x); try discriminate;
    try (apply Ok_inj in E; subst h'; exists a; repeat split; assumption).
  destruct (scale_high_once A h) as [h1| | |] eqn:E1; try discriminate. cbn [bind] in E.
  destruct (high_once_conv a h h1 L LV E1) as (a1 & -> & L1 & V1). cbn [bind]. now apply (IH a1 h1).
Qed.
Lemma scale_conv : forall f a h h' x, like a h -> fits a -> scale A f h x = Ok h' -> exists a', a_scale A f a x = Ok a' /\ like a' h' /\ fits a'.
Proof.
  intros f a h h' x L LV E. unfold a_scale, scale in *. rewrite (like_low a h L), (like_high a h L) in E.
  replace (is_scalable h) with (is_scalable (counts a)) in E by (rewrite L; reflexivity).
  destruct (is_scalable (counts a) && _); [|apply Ok_inj in E; subst h'; exists a; repeat split; assumption].
  destruct (scale_low A f h x) as [h1| | |] eqn:E1; try discriminate. cbn [bind] in E.
  destruct (low_conv f a h h1 x L LV E1) as (a1 & -> & L1 & V1). cbn [bind]. now apply (high_conv f a1 h1).
Qed.
Lemma add_conv : forall f a h h' x d, like a h -> is_growable h = false -> fits a -> h_add A f h x = Ok h' ->
  exists a', a_add A f a x d = Ok a' /\ like a' h' /\ fits a'.
Proof.
  intros f a h h' x d L G LV E. unfold a_add. cbn [counts val_bins].
  set (a0 := mkAccum (with_base A (counts a) (st_add A (base (counts a)) d)) (val_bins a)) in *.
  unfold h_add in E. set (h0 := with_base A h (st_add A (base h) x)) in *.
  assert (L0 : like a0 h0) by (unfold like, h0, a0; rewrite L; reflexivity).
  assert (GR : grow A h0 x = Ok h0) by (unfold grow; change (is_growable h0) with (is_growable h); rewrite G; reflexivity).
  rewrite GR in E. cbn [bind] in E. destruct (scale A f h0 x) as [h1| | |] eqn:E1; try discriminate. cbn [bind] in E.
  destruct (scale_conv f a0 h0 h1 x L0 LV E1) as (a1 & -> & L1 & V1). cbn [bind].
  replace (sampleBin A h1 x) with (sampleBin A (counts a1) x) in E by (rewrite L1; reflexivity).
  destruct (sampleBin A (counts a1) x) as [bin| | |]; try discriminate. cbn [bind] in *.
  replace (bins h1) with (bins (counts a1)) in E by (rewrite L1; reflexivity).
  destruct (zget (bins (counts a1)) bin) as [c| | |] eqn:Eg; try discriminate. destruct (zget_len _ (val_bins a1) bin c V1 Eg) as (s & ->). cbn [bind] in *.
  destruct (zput (bins (counts a1)) bin (u64 (c + 1))) as [b| | |] eqn:Ep; try discriminate. destruct (zput_len _ b (val_bins a1) bin _ (nadd s d) V1 Ep) as (v & -> & Lv).
  cbn [bind] in *. apply Ok_inj in E. subst h'. eexists. split; [reflexivity|]. split; [unfold like, with_bins, with_base; rewrite L1; reflexivity|exact Lv].
Qed.
Lemma adds_conv : forall l f a h h', like a h -> is_growable h = false -> fits a -> h_adds A f h (map fst l) = Ok h' ->
  exists a', a_adds A f a l = Ok a' /\ fits a'.
Proof.
  induction l as [|[x d] l IH]; intros f a h h' L G LV E; cbn [a_adds h_adds map fst] in *.
  - exists a. split; [reflexivity|exact LV].
  - destruct (h_add A f h x) as [h1| | |] eqn:E1; try discriminate. cbn [bind] in E.
    destruct (add_conv f a h h1 x d L G LV E1) as (a1 & E2 & L1 & V1). rewrite E2. cbn [bind].
    destruct (add_like f a h a1 x d L G E2) as (h2 & O2 & _ & _ & _ & G2). assert (h2 = h1) by congruence. subst h2.
    now apply (IH f a1 h1 h').
Qed.

Lemma zero_vals_ok : forall n w y, length y = n -> zero_vals A n (w ++ y) (Z.of_nat (length w)) = Ok (w ++ repeat (of_int 0) n).
Proof.
  induction n as [|n IH]; intros w y L; cbn [zero_vals repeat].
  - destruct y; [reflexivity|discriminate].
  - destruct y as [|p y]; [discriminate|]. rewrite zput_app by reflexivity. cbn [bind].
    replace (w ++ of_int 0 :: y) with ((w ++ [of_int 0]) ++ y) by (rewrite <- app_assoc; reflexivity).
    replace (Z.of_nat (length w) + 1) with (Z.of_nat (length (w ++ [@of_int A 0]))) by (rewrite app_length; cbn [length]; lia).
    rewrite IH by (cbn in L; lia). rewrite <- app_assoc. reflexivity.
Qed.
Lemma zero_vals_ub : forall n w y, (length y < n)%nat -> zero_vals A n (w ++ y) (Z.of_nat (length w)) = UB.
Proof.
  induction n as [|n IH]; intros w y L; cbn [zero_vals]; [lia|].
  destruct y as [|p y].
  - unfold zput. replace (0 <=? _) with true by lia. rewrite Nat2Z.id, app_nil_r. unfold put. replace (_ <? _)%nat with false by lia. reflexivity.
  - rewrite zput_app by reflexivity. cbn [bind].
    replace (w ++ of_int 0 :: y) with ((w ++ [of_int 0]) ++ y) by (rewrite <- app_assoc; reflexivity).
    replace (Z.of_nat (length w) + 1) with (Z.of_nat (length (w ++ [@of_int A 0]))) by (rewrite app_length; cbn [length]; lia).
    apply IH. cbn in L. lia.
Qed.
Lemma h_new_shape : forall bins_in low high s g h, h_new A bins_in low high s g = Ok h -> num_bins h = 2 * (u32 (bins_in + 1) / 2) /\
  base h = st_new A /\ length (bins h) = Z.to_nat (num_bins h) /\ is_growable h = g /\ h_reset A h = h.
Proof.
  intros bins_in low high s g h E. unfold h_new in E. destruct (nle low high); [|discriminate]. destruct (0 <? bins_in); [|discriminate].
  destruct (negb (g && s)); [|discriminate]. cbn [invariant bind] in E. apply Ok_inj in E. subst h. cbn [h_reset num_bins base bins is_growable bin_width bin_low bin_high is_scalable].
  rewrite !repeat_length. repeat split; unfold h_reset; cbn [h_reset num_bins base bins is_growable bin_width bin_low bin_high is_scalable]; rewrite ?repeat_length; reflexivity.
Qed.
Lemma a_new_even : forall n low high s g h, h_new A (2 * n) low high s g = Ok h -> 0 < 2 * n < 2 ^ 32 ->
  a_new A (2 * n) low high s g = Ok (mkAccum h (repeat (of_int 0) (Z.to_nat (2 * n)))).
Proof.
  intros n low high s g h E B. unfold a_new. rewrite E. cbn [bind]. unfold a_reset. cbn [counts val_bins].
  destruct (h_new_shape _ _ _ _ _ _ E) as (N & Bs & L & G & R). rewrite R.
  assert (N' : num_bins h = 2 * n). { rewrite N. unfold u32. rewrite Z.mod_small by lia. Z.to_euclidean_division_equations; lia. }
  rewrite N'. change 0 with (Z.of_nat (@length A [])) at 2.
  rewrite (zero_vals_ok _ [] (repeat (of_int 0) (Z.to_nat (2 * n)))) by apply repeat_length. reflexivity.
Qed.
Lemma a_new_odd : forall n low high s g h, h_new A (2 * n + 1) low high s g = Ok h -> 0 < 2 * n + 1 < 2 ^ 32 - 1 ->
  a_new A (2 * n + 1) low high s g = UB.
Proof.
  intros n low high s g h E B. unfold a_new. rewrite E. cbn [bind]. unfold a_reset. cbn [counts val_bins].
  destruct (h_new_shape _ _ _ _ _ _ E) as (N & Bs & L & G & R). rewrite R.
  assert (N' : num_bins h = 2 * n + 2). { rewrite N. unfold u32. rewrite Z.mod_small by lia. Z.to_euclidean_division_equations; lia. }
  rewrite N'. change 0 with (Z.of_nat (@length A [])) at 2.
  rewrite (zero_vals_ub _ [] (repeat (of_int 0) (Z.to_nat (2 * n + 1)))) by (rewrite repeat_length; lia). reflexivity.
Qed.
End G.

Local Open Scope Q_scope.
Lemma total_snoc : forall p l x d, total_of p (l ++ [(x, d)]) == total_of p l + (if p x then d else 0).
Proof. intros p l x d. induction l as [|[y e] l IH]; cbn [app total_of]; [ring|]. rewrite IH. ring. Qed.
Lemma total_ext : forall p q l, (forall x d, In (x, d) l -> p x = q x) -> total_of p l == total_of q l.
Proof.
  intros p q l H. induction l as [|[y e] l IH]; cbn [total_of]; [reflexivity|]. rewrite IH by (intros x d Hx; apply (H x d); now right).
  rewrite (H y e) by now left. reflexivity.
Qed.
Lemma total_0 : forall p l, (forall x d, In (x, d) l -> p x = false) -> total_of p l == 0.
Proof.
  intros p l H. induction l as [|[y e] l IH]; cbn [total_of]; [reflexivity|]. rewrite IH by (intros x d Hx; apply (H x d); now right).
  rewrite (H y e) by now left. ring.
Qed.
Lemma total_split : forall a b c l, a <= b -> b <= c -> total_of (in_range a b) l + total_of (in_range b c) l == total_of (in_range a c) l.
Proof.
  intros a b c l H1 H2. induction l as [|[x d] l IH]; cbn [total_of]; [ring|]. rewrite <- IH.
  destruct (in_range a b x) eqn:E1, (in_range b c x) eqn:E2, (in_range a c x) eqn:E3; try ring; exfalso;
    rewrite ?in_range_iff in *;
    repeat match goal with H : in_range _ _ _ = false |- _ => apply not_true_iff_false in H; rewrite in_range_iff in H end; try lra.
Qed.

(** Value bin [i] is finite and equal to the total of the data of the samples of [p i]. *)
Definition sums (p : nat -> Q -> bool) (v : list xnum) (l : list (Q * Q)) : Prop :=
  forall i x, nth_error v i = Some x -> exists q, x = Fin q /\ q == total_of (p i) l.
Definition intervals (lo w : Q) (i : nat) : Q -> bool := in_range (edge lo w i) (edge lo w (S i)).
Definition AR (a : accum exact) (lo hi w : Q) (l : list (Q * Q)) : Prop :=
  HR (counts a) lo hi w (map fst l) /\ length (val_bins a) = length (bins (counts a)) /\ sums (intervals lo w) (val_bins a) l.

Lemma nth_gpairs : forall X (op : X -> X -> X) m l i c, length l = (2 * m)%nat -> nth_error (gpairs X op l) i = Some c ->
  exists a b, nth_error l (2 * i) = Some a /\ nth_error l (2 * i + 1) = Some b /\ c = op a b.
Proof.
  intros X op. induction m as [|m IH]; intros l i c L E.
  - destruct l; [destruct i; discriminate|cbn in L; lia].
  - destruct l as [|a [|b l]]; cbn in L; try lia. cbn [gpairs] in E. destruct i as [|i]; cbn in E.
    + injection E as <-. exists a, b. auto.
    + destruct (IH l i c ltac:(lia) E) as (a' & b' & A1 & B1 & ->). exists a', b'.
      replace (2 * S i)%nat with (S (S (2 * i))) by lia. replace (S (S (2 * i)) + 1)%nat with (S (S (2 * i + 1))) by lia. cbn [nth_error]. auto.
Qed.
Lemma pair_sums : forall lo w m (v : list exact) l i c, 0 < w -> length v = (2 * m)%nat -> sums (intervals lo w) v l ->
  nth_error (gpairs exact nadd v) i = Some c -> exists q, c = Fin q /\ q == total_of (in_range (edge lo w (2 * i)) (edge lo w (2 * S i))) l.
Proof.
  intros lo w m v l i c W L C E. destruct (nth_gpairs exact nadd m v i c L E) as (p & q & P & Q & ->).
  destruct (C _ _ P) as (x & -> & X). destruct (C _ _ Q) as (y & -> & Y). exists (x + y). split; [reflexivity|]. rewrite X, Y. unfold intervals.
  replace (2 * S i)%nat with (S (2 * i + 1)) by lia. replace (S (2 * i)) with (2 * i + 1)%nat by lia.
  apply total_split; apply edge_mono; lra || lia.
Qed.
Lemma nth_repeat_any : forall X (z : X) n i c, nth_error (repeat z n) i = Some c -> c = z.
Proof. intros X z n i c E. apply nth_error_In in E. now apply repeat_spec in E. Qed.
Lemma in_fst : forall (l : list (Q * Q)) x d, In (x, d) l -> In x (map fst l).
Proof. intros l x d H. apply (in_map fst) in H. exact H. Qed.
Lemma zero_sum : forall p (l : list (Q * Q)), (forall x d, In (x, d) l -> p x = false) -> exists q, @of_int exact 0 = Fin q /\ q == total_of p l.
Proof. intros p l H. exists 0. split; [reflexivity|]. symmetry. now apply total_0. Qed.

Lemma a_high_once_ok : forall a lo hi w l m, AR a lo hi w l -> length (bins (counts a)) = (2 * m)%nat -> (Z.of_nat (length l) < 2 ^ 64)%Z ->
  exists a', a_high_once exact a = Ok a' /\ AR a' lo (hi + (hi - lo)) (w + w) l /\ keeps (counts a) (counts a').
Proof.
  intros a lo hi w l m (R & LV & C) L B. pose proof R as (E1 & E2 & E3 & W & EH & LP & NB & _ & F).
  destruct (high_once (counts a) lo hi w (map fst l) m R L ltac:(rewrite map_length; exact B)) as (h' & O & R' & K).
  destruct (a_high_once_eq exact a m L ltac:(lia) ltac:(lia)) as (h2 & O2 & OA). assert (h2 = h') by congruence. subst h2.
  eexists. split; [exact OA|]. split; [|exact K]. unfold AR. cbn [counts val_bins]. split; [exact R'|].
  pose proof (gpairs_length exact nadd m (val_bins a) ltac:(lia)) as Lp. destruct K as (KL & _).
  split; [rewrite app_length, repeat_length; lia|].
  intros i c Ec. destruct (Nat.lt_ge_cases i m) as [Li|Li].
  - rewrite nth_error_app1 in Ec by lia. destruct (pair_sums lo w m (val_bins a) l i c W ltac:(lia) C Ec) as (q & -> & Q). exists q. split; [reflexivity|].
    rewrite Q. apply total_ext. intros x d _. unfold intervals. apply in_range_ext; now rewrite edge_double.
  - rewrite nth_error_app2 in Ec by lia. apply nth_repeat_any in Ec. subst c. apply zero_sum. intros x d Hx. apply in_fst in Hx.
    rewrite Forall_forall in F. specialize (F x Hx). apply not_true_iff_false. unfold intervals. rewrite in_range_iff. intros [A _].
    rewrite edge_double in A. pose proof (edge_mono lo w (length (bins (counts a))) (2 * i) ltac:(lra) ltac:(lia)). lra.
Qed.
Lemma a_low_once_ok : forall a lo hi w l m, AR a lo hi w l -> length (bins (counts a)) = (2 * m)%nat -> (num_bins (counts a) <= 2 ^ 31)%Z -> (Z.of_nat (length l) < 2 ^ 64)%Z ->
  exists a', a_low_once exact a = Ok a' /\ AR a' (lo - (hi - lo)) hi (w + w) l /\ keeps (counts a) (counts a').
Proof.
  intros a lo hi w l m (R & LV & C) L NM B. pose proof R as (E1 & E2 & E3 & W & EH & LP & NB & _ & F).
  destruct (low_once (counts a) lo hi w (map fst l) m R L NM ltac:(rewrite map_length; exact B)) as (h' & O & R' & K).
  destruct (a_low_once_eq exact a m L ltac:(lia) ltac:(lia) ltac:(lia) NM) as (h2 & O2 & OA). assert (h2 = h') by congruence. subst h2.
  eexists. split; [exact OA|]. split; [|exact K]. unfold AR. cbn [counts val_bins]. split; [exact R'|].
  pose proof (gpairs_length exact nadd m (val_bins a) ltac:(lia)) as Lp. destruct K as (KL & _).
  split; [rewrite app_length, repeat_length; lia|].
  assert (Q2 : inject_Z (Z.of_nat 2) == 2) by reflexivity.
  assert (EQ : hi - lo == inject_Z (Z.of_nat m) * (w + w)).
  { rewrite EH, L. unfold edge. rewrite Nat2Z.inj_mul, inject_Z_mult, Q2. ring. }
  assert (ED : forall k, edge (lo - (hi - lo)) (w + w) (m + k) == edge lo w (2 * k)).
  { intros k. unfold edge. rewrite !Nat2Z.inj_mul, !Nat2Z.inj_add, !inject_Z_plus, !inject_Z_mult, Q2, EQ. ring. }
  intros i c Ec. destruct (Nat.lt_ge_cases i m) as [Li|Li].
  - rewrite nth_error_app1 in Ec by (rewrite repeat_length; lia). apply nth_repeat_any in Ec. subst c. apply zero_sum. intros x d Hx. apply in_fst in Hx.
    rewrite Forall_forall in F. specialize (F x Hx). apply not_true_iff_false. unfold intervals. rewrite in_range_iff. intros [_ A].
    pose proof (edge_mono (lo - (hi - lo)) (w + w) (S i) (m + 0) ltac:(lra) ltac:(lia)) as G. rewrite ED in G.
    change (2 * 0)%nat with 0%nat in G. rewrite edge_0 in G. lra.
  - rewrite nth_error_app2 in Ec by (rewrite repeat_length; lia). rewrite repeat_length in Ec.
    destruct (pair_sums lo w m (val_bins a) l (i - m) c W ltac:(lia) C Ec) as (q & -> & Q). exists q. split; [reflexivity|].
    rewrite Q. apply total_ext. intros x d _. unfold intervals. apply in_range_ext.
    * rewrite <- ED. now replace (m + (i - m))%nat with i by lia.
    * rewrite <- ED. now replace (m + S (i - m))%nat with (S i) by lia.
Qed.

Lemma a_high_ok : forall n a lo hi w l m x fuel, AR a lo hi w l -> length (bins (counts a)) = (2 * m)%nat -> (Z.of_nat (length l) < 2 ^ 64)%Z ->
  x - lo < p2 n * (hi - lo) -> (n <= fuel)%nat ->
  exists a' hi' w', a_high exact fuel a (Fin x) = Ok a' /\ AR a' lo hi' w' l /\ x < hi' /\ keeps (counts a) (counts a').
Proof.
  induction n as [|n IH]; intros a lo hi w l m x fuel R L B X LF; pose proof R as ((E1 & E2 & _) & _).
  - rewrite p2_0 in X. exists a, hi, w. split; [|split; [exact R|split; [lra|apply keeps_refl]]].
    destruct fuel; cbn [a_high]; rewrite E2, nle_fin, (proj2 (Qle_bool_false hi x)) by lra; reflexivity.
  - destruct (Qlt_le_dec x hi) as [G|G].
    + exists a, hi, w. split; [|split; [exact R|split; [lra|apply keeps_refl]]].
      destruct fuel; cbn [a_high]; rewrite E2, nle_fin, (proj2 (Qle_bool_false hi x)) by lra; reflexivity.
    + destruct fuel as [|fuel]; [lia|]. destruct (a_high_once_ok a lo hi w l m R L B) as (a1 & O1 & R1 & K).
      destruct (IH a1 lo (hi + (hi - lo)) (w + w) l m x fuel R1 ltac:(destruct K; lia) B) as (a' & hi' & w' & O2 & R2 & X2 & K2).
      * rewrite p2_S in X. lra.
      * lia.
      * exists a', hi', w'. split; [|split; [exact R2|split; [exact X2|eapply keeps_trans; [exact K|exact K2]]]].
        cbn [a_high]. rewrite E2, nle_fin, (proj2 (Qle_bool_iff hi x)) by lra. rewrite O1. exact O2.
Qed.
Lemma a_low_ok : forall n a lo hi w l m x fuel, AR a lo hi w l -> length (bins (counts a)) = (2 * m)%nat -> (num_bins (counts a) <= 2 ^ 31)%Z -> (Z.of_nat (length l) < 2 ^ 64)%Z ->
  hi - x <= p2 n * (hi - lo) -> (n <= fuel)%nat ->
  exists a' lo' w', a_low exact fuel a (Fin x) = Ok a' /\ AR a' lo' hi w' l /\ lo' <= x /\ keeps (counts a) (counts a').
Proof.
  induction n as [|n IH]; intros a lo hi w l m x fuel R L NM B X LF; pose proof R as ((E1 & E2 & _) & _).
  - rewrite p2_0 in X. exists a, lo, w. split; [|split; [exact R|split; [lra|apply keeps_refl]]].
    destruct fuel; cbn [a_low]; rewrite E1, nlt_fin, (proj2 (Qle_bool_iff lo x)) by lra; reflexivity.
  - destruct (Qlt_le_dec x lo) as [G|G].
    + destruct fuel as [|fuel]; [lia|]. destruct (a_low_once_ok a lo hi w l m R L NM B) as (a1 & O1 & R1 & K).
      destruct (IH a1 (lo - (hi - lo)) hi (w + w) l m x fuel R1 ltac:(destruct K; lia) ltac:(destruct K as (_ & K2 & _); lia) B) as (a' & lo' & w' & O2 & R2 & X2 & K2).
      * rewrite p2_S in X. lra.
      * lia.
      * exists a', lo', w'. split; [|split; [exact R2|split; [exact X2|eapply keeps_trans; [exact K|exact K2]]]].
        cbn [a_low]. rewrite E1, nlt_fin, (proj2 (Qle_bool_false lo x)) by lra. cbn [negb]. rewrite O1. exact O2.
    + exists a, lo, w. split; [|split; [exact R|split; [lra|apply keeps_refl]]].
      destruct fuel; cbn [a_low]; rewrite E1, nlt_fin, (proj2 (Qle_bool_iff lo x)) by lra; reflexivity.
Qed.
Lemma a_scale_ok : forall a lo hi w l x, AR a lo hi w l -> scal (counts a) -> (Z.of_nat (length l) + 1 < 2 ^ 64)%Z ->
  exists N, forall fuel, (N <= fuel)%nat -> exists a' lo' hi' w', a_scale exact fuel a (Fin x) = Ok a' /\ AR a' lo' hi' w' l /\ lo' <= x /\ x < hi' /\ keeps (counts a) (counts a').
Proof.
  intros a lo hi w l x R (S1 & S2 & [m Em] & S4) B. pose proof R as (R0 & _). pose proof (HR_range _ _ _ _ _ R0) as LH. pose proof R0 as (E1 & E2 & _).
  destruct (Qlt_le_dec x lo) as [G|G].
  - destruct (exists_p2 (hi - x) (hi - lo)) as (n & Hn); [lra|]. exists n. intros fuel LF.
    destruct (a_low_ok n a lo hi w l m x fuel R Em S4 ltac:(lia) ltac:(lra) LF) as (a1 & lo' & w' & O1 & R1 & X1 & K1).
    exists a1, lo', hi, w'. unfold a_scale. rewrite S1, E1, nlt_fin, (proj2 (Qle_bool_false lo x) G). cbn [negb orb andb]. rewrite O1. cbn [bind].
    pose proof R1 as ((_ & F2 & _) & _). split; [|split; [exact R1|split; [exact X1|split; [lra|exact K1]]]].
    destruct fuel; cbn [a_high]; rewrite F2, nle_fin, (proj2 (Qle_bool_false hi x)) by lra; reflexivity.
  - assert (SL : forall f, a_low exact f a (Fin x) = Ok a).
    { intros f. destruct f; cbn [a_low]; rewrite E1, nlt_fin, (proj2 (Qle_bool_iff lo x) G); reflexivity. }
    destruct (Qlt_le_dec x hi) as [G'|G'].
    + exists 0%nat. intros fuel _. exists a, lo, hi, w. split; [|split; [exact R|split; [exact G|split; [exact G'|apply keeps_refl]]]].
      unfold a_scale. rewrite E1, E2, nlt_fin, nle_fin, (proj2 (Qle_bool_iff lo x) G), (proj2 (Qle_bool_false hi x) G'). cbn [negb orb]. now rewrite andb_false_r.
    + destruct (exists_p2 (x - lo) (hi - lo)) as (n & Hn); [lra|]. exists n. intros fuel LF.
      destruct (a_high_ok n a lo hi w l m x fuel R Em ltac:(lia) ltac:(lra) LF) as (a1 & hi' & w' & O1 & R1 & X1 & K1).
      exists a1, lo, hi', w'. split; [|split; [exact R1|split; [exact G|split; [exact X1|exact K1]]]].
      unfold a_scale. rewrite S1, E1, E2, nle_fin, (proj2 (Qle_bool_iff hi x) G'), orb_true_r. cbn [andb]. rewrite SL. exact O1.
Qed.

(** Adding to the right value bin. *)
Lemma bump_sum : forall (p : nat -> Q -> bool) (v : list exact) l x d k, sums p v l -> (k < length v)%nat -> (forall i, (i < length v)%nat -> p i x = (i =? k)%nat) ->
  exists s v', zget v (Z.of_nat k) = Ok s /\ zput v (Z.of_nat k) (nadd s (Fin d : exact)) = Ok v' /\ length v' = length v /\ sums p v' (l ++ [(x, d)]).
Proof.
  intros p v l x d k C L P. destruct (get_lt v k L) as (s & E & G). destruct (C k s E) as (q & -> & Q). exists (Fin q), (upd v k (Fin (q + d))).
  unfold zget, zput. replace (0 <=? Z.of_nat k)%Z with true by lia. rewrite Nat2Z.id, G, put_ok by exact L.
  repeat split; [apply length_upd|]. intros i y E'.
  assert (Li : (i < length v)%nat) by (apply nth_error_lt in E'; now rewrite length_upd in E').
  rewrite nth_error_upd in E'. destruct (Nat.eqb_spec k i) as [->|N].
  - match type of E' with context[if ?c then _ else _] => replace c with true in E' by (symmetry; apply Nat.ltb_lt; exact L) end. cbn [andb] in E'.
    assert (y = Fin (q + d)) by congruence. subst y. exists (q + d). split; [reflexivity|].
    rewrite total_snoc, P, Nat.eqb_refl, Q by exact Li. reflexivity.
  - cbn in E'. destruct (C i y E') as (q' & -> & Q'). exists q'. split; [reflexivity|]. rewrite total_snoc, P by exact Li. replace (i =? k)%nat with false by lia. rewrite Q'. ring.
Qed.
Lemma add_inside_bin : forall h lo hi w l x, HR h lo hi w l -> lo <= x -> x < hi -> (num_bins h < 2 ^ 32)%Z ->
  exists k, sampleBin exact h (Fin x) = Ok (Z.of_nat k) /\ (k < length (bins h))%nat /\ edge lo w k <= x /\ x < edge lo w (S k).
Proof.
  intros h lo hi w l x (E1 & E2 & E3 & W & EH & LP & NB & C & F) Hl Hh B.
  destruct (floor_bin lo w x W Hl) as (k & K1 & K2 & K3).
  assert (KL : (k < length (bins h))%nat) by (apply (edge_lt_inv lo w); [exact W|lra]).
  exists k. split; [|split; [exact KL|split; assumption]].
  unfold sampleBin. rewrite E1, E2, E3, !nle_fin. destruct (Qle_bool_spec' x lo) as [L|L].
  - f_equal. assert (k < 1)%nat by (apply (edge_lt_inv lo w); [exact W|]; rewrite edge_S, edge_0; lra). lia.
  - rewrite (proj2 (Qle_bool_false hi x)) by exact Hh. change (@nsub exact (Fin x) (Fin lo)) with (Fin (x - lo)).
    apply floor_fin; [lra|exact K1|lia].
Qed.
Definition fins (l : list (Q * Q)) : list (exact * exact) := map (fun p => (Fin (fst p), Fin (snd p))) l.
Lemma a_scal_add : forall a lo hi w l x d, AR a lo hi w l -> scal (counts a) -> (Z.of_nat (length l) + 1 < 2 ^ 64)%Z ->
  exists N, forall fuel, (N <= fuel)%nat -> exists a' lo' hi' w', a_add exact fuel a (Fin x) (Fin d) = Ok a' /\ AR a' lo' hi' w' (l ++ [(x, d)]) /\ scal (counts a') /\
    length (bins (counts a')) = length (bins (counts a)).
Proof.
  intros a lo hi w l x d R SC B.
  set (a0 := @mkAccum exact (with_base exact (counts a) (st_add exact (base (counts a)) (Fin d))) (val_bins a)).
  assert (R0 : AR a0 lo hi w l) by exact R.
  destruct (a_scale_ok a0 lo hi w l x R0 SC B) as (N & HN). exists N. intros fuel LF.
  destruct (HN fuel LF) as (a2 & lo' & hi' & w' & O2 & R2 & X1 & X2 & K). pose proof R2 as (H2 & LV & V2).
  assert (NB : (num_bins (counts a2) < 2 ^ 32)%Z). { destruct K as (_ & -> & _). destruct SC as (_ & _ & _ & S4). change (num_bins (counts a) < 2 ^ 32)%Z. lia. }
  destruct (add_inside_bin (counts a2) lo' hi' w' _ x H2 X1 X2 NB) as (k & SB & KL & K1 & K2).
  destruct (finish_add (counts a2) lo' hi' w' (map fst l) x H2 X1 X2 NB ltac:(rewrite map_length; exact B)) as (h' & E & R' & K').
  pose proof H2 as (_ & _ & _ & W' & _).
  destruct (bump_sum (intervals lo' w') (val_bins a2) l x d k V2 ltac:(lia)) as (s & v & G & P & Lv & V').
  { intros i _. now apply range_unique. }
  destruct (keeps_trans _ _ _ K K') as (Q1 & Q2 & Q3 & Q4 & Q5). 
  rewrite SB in E. cbn [bind] in E. destruct (zget (bins (counts a2)) (Z.of_nat k)) as [c| | |] eqn:Eg; try discriminate. cbn [bind] in E.
  destruct (zput (bins (counts a2)) (Z.of_nat k) (u64 (c + 1))) as [b| | |] eqn:Ep; try discriminate. cbn [bind] in E. apply Ok_inj in E.
  exists (mkAccum h' v), lo', hi', w'. split; [|split; [|split]].
  - unfold a_add. fold a0. rewrite O2. cbn [bind]. rewrite SB. cbn [bind]. rewrite Eg. cbn [bind]. rewrite Ep. cbn [bind]. rewrite G. cbn [bind]. rewrite P. cbn [bind]. now rewrite E.
  - unfold AR. cbn [counts val_bins]. rewrite map_app. cbn [map fst]. split; [exact R'|]. split; [|exact V'].
    destruct K' as (KL' & _). lia.
  - unfold scal. cbn [counts]. rewrite Q1, Q2, Q4, Q5. exact SC.
  - exact Q1.
Qed.
Section Mono.
Variable A : arith.
Lemma a_low_mono : forall f g a (v : A) r, a_low A f a v = Ok r -> (f <= g)%nat -> a_low A g a v = Ok r.
Proof.
  induction f as [|f IH]; intros g a v r E L; destruct g as [|g]; try lia; cbn [a_low] in *; destruct (nlt v (bin_low (counts a))); try discriminate; auto.
  destruct (a_low_once A a) as [a1| | |]; try discriminate. cbn [bind] in *. apply IH; [exact E|lia].
Qed.
Lemma a_high_mono : forall f g a (v : A) r, a_high A f a v = Ok r -> (f <= g)%nat -> a_high A g a v = Ok r.
Proof.
  induction f as [|f IH]; intros g a v r E L; destruct g as [|g]; try lia; cbn [a_high] in *; destruct (nle (bin_high (counts a)) v); try discriminate; auto.
  destruct (a_high_once A a) as [a1| | |]; try discriminate. cbn [bind] in *. apply IH; [exact E|lia].
Qed.
Lemma a_add_mono : forall f g a (v d : A) r, a_add A f a v d = Ok r -> (f <= g)%nat -> a_add A g a v d = Ok r.
Proof.
  intros f g a v d r E L. unfold a_add in *. set (a1 := mkAccum _ _) in *.
  assert (S : forall a2, a_scale A f a1 v = Ok a2 -> a_scale A g a1 v = Ok a2).
  { intros a2 E2. unfold a_scale in *. destruct (is_scalable (counts a1) && _); [|exact E2].
    destruct (a_low A f a1 v) as [a3| | |] eqn:E3; try discriminate. cbn [bind] in E2.
    rewrite (a_low_mono f g a1 v a3 E3 L). cbn [bind]. now apply (a_high_mono f g). }
  destruct (a_scale A f a1 v) as [a2| | |]; try discriminate. rewrite (S a2 eq_refl). exact E.
Qed.
Lemma a_adds_mono : forall l f g a (r : accum A), a_adds A f a l = Ok r -> (f <= g)%nat -> a_adds A g a l = Ok r.
Proof.
  induction l as [|[v d] l IH]; intros f g a r E L; cbn [a_adds] in *; [exact E|].
  destruct (a_add A f a v d) as [a1| | |] eqn:E1; try discriminate. cbn [bind] in E. rewrite (a_add_mono f g a v d a1 E1 L). cbn [bind]. now apply (IH f g).
Qed.
End Mono.
Lemma a_scal_adds : forall xs a lo hi w l, AR a lo hi w l -> scal (counts a) -> (Z.of_nat (length l + length xs) < 2 ^ 64)%Z ->
  exists N a' lo' hi' w', a_adds exact N a (fins xs) = Ok a' /\ AR a' lo' hi' w' (l ++ xs) /\ scal (counts a') /\ length (bins (counts a')) = length (bins (counts a)).
Proof.
  induction xs as [|[x d] xs IH]; intros a lo hi w l R SC B.
  - exists 0%nat, a, lo, hi, w. rewrite app_nil_r. split; [reflexivity|]. split; [exact R|]. split; [exact SC|reflexivity].
  - cbn [length] in B. destruct (a_scal_add a lo hi w l x d R SC ltac:(lia)) as (N1 & H1).
    destruct (H1 N1 ltac:(lia)) as (a1 & lo1 & hi1 & w1 & O1 & R1 & SC1 & L1).
    destruct (IH a1 lo1 hi1 w1 (l ++ [(x, d)]) R1 SC1 ltac:(rewrite app_length; cbn [length]; lia)) as (N2 & a2 & lo2 & hi2 & w2 & O2 & R2 & SC2 & L2).
    exists (Nat.max N1 N2), a2, lo2, hi2, w2. rewrite <- app_assoc in R2. split; [|split; [exact R2|split; [exact SC2|congruence]]].
    cbn [fins map a_adds fst snd]. rewrite (a_add_mono exact N1 (Nat.max N1 N2) a (Fin x) (Fin d) a1 O1 ltac:(lia)). cbn [bind].
    apply (a_adds_mono exact _ N2); [exact O2|lia].
Qed.

(** Fixed (the growable flag is ignored). *)
Definition ungrow (h : hist exact) : hist exact := mkHist (base h) (num_bins h) (bin_width h) (bin_low h) (bin_high h) (bins h) (is_scalable h) false.
Definition AF (a : accum exact) (lo hi w : Q) (l : list (Q * Q)) : Prop :=
  HF (ungrow (counts a)) lo hi w (map fst l) /\ length (val_bins a) = length (bins (counts a)) /\ sums (clamped lo w (length (bins (counts a)))) (val_bins a) l.
Lemma a_fixed_add : forall a lo hi w l x d fuel, AF a lo hi w l -> (num_bins (counts a) < 2 ^ 32)%Z -> (Z.of_nat (length l) + 1 < 2 ^ 64)%Z ->
  exists a', a_add exact fuel a (Fin x) (Fin d) = Ok a' /\ AF a' lo hi w (l ++ [(x, d)]) /\ num_bins (counts a') = num_bins (counts a).
Proof.
  intros a lo hi w l x d fuel R B NL. pose proof R as (HF0 & LV & V). pose proof HF0 as (E1 & E2 & E3 & W & EH & LP & NB & S & G & C).
  set (a0 := @mkAccum exact (with_base exact (counts a) (st_add exact (base (counts a)) (Fin d))) (val_bins a)).
  destruct (fixed_bin (ungrow (counts a)) lo hi w (map fst l) x HF0 B) as (k & SB & KL & CU).
  destruct (bump (clamped lo w (length (bins (counts a)))) (bins (counts a)) (map fst l) x k C KL CU ltac:(rewrite map_length; exact NL)) as (c & b & G1 & P1 & Lb & C').
  destruct (bump_sum (clamped lo w (length (bins (counts a)))) (val_bins a) l x d k V ltac:(cbn [ungrow bins] in KL; lia)) as (s & v & G2 & P2 & Lv & V').
  { intros i Li. apply CU. cbn [ungrow bins]. lia. }
  exists (mkAccum (with_bins exact (counts a0) b) v). split; [|split; [|reflexivity]].
  - unfold a_add. fold a0. unfold a_scale. change (is_scalable (counts a0)) with (is_scalable (ungrow (counts a))). rewrite S. cbn [andb bind].
    change (sampleBin exact (counts a0) (Fin x)) with (sampleBin exact (ungrow (counts a)) (Fin x)).
    rewrite SB. cbn [bind]. change (bins (counts a0)) with (bins (counts a)). rewrite G1. cbn [bind]. rewrite P1. cbn [bind].
    change (val_bins a0) with (val_bins a). rewrite G2. cbn [bind]. rewrite P2. reflexivity.
  - unfold AF, HF. cbn [counts val_bins with_bins ungrow bin_low bin_high bin_width bins num_bins is_scalable is_growable a0 with_base].
    rewrite Lb, map_app. cbn [map fst]. repeat split; auto.
    + unfold bins_count_clamped. rewrite Lb. exact C'.
    + lia.
Qed.
Lemma a_fixed_adds : forall xs a lo hi w l fuel, AF a lo hi w l -> (num_bins (counts a) < 2 ^ 32)%Z -> (Z.of_nat (length l + length xs) < 2 ^ 64)%Z ->
  exists a', a_adds exact fuel a (fins xs) = Ok a' /\ AF a' lo hi w (l ++ xs) /\ num_bins (counts a') = num_bins (counts a).
Proof.
  induction xs as [|[x d] xs IH]; intros a lo hi w l fuel R B NL.
  - exists a. rewrite app_nil_r. split; [reflexivity|]. split; [exact R|reflexivity].
  - cbn [length] in NL. destruct (a_fixed_add a lo hi w l x d fuel R B ltac:(lia)) as (a1 & O1 & R1 & N1).
    destruct (IH a1 lo hi w (l ++ [(x, d)]) fuel R1 ltac:(lia) ltac:(rewrite app_length; cbn [length]; lia)) as (a2 & O2 & R2 & N2).
    exists a2. rewrite <- app_assoc in R2. split; [|split; [exact R2|congruence]]. cbn [fins map fst snd a_adds]. rewrite O1. exact O2.
Qed.

(** reset *)
Lemma a_reset_ok : forall a lo hi w l, AR a lo hi w l -> scal (counts a) ->
  exists a' w', a_reset exact a = Ok a' /\ AR a' lo hi w' [] /\ scal (counts a') /\ length (bins (counts a')) = length (bins (counts a)).
Proof.
  intros a lo hi w l (R & LV & C) SC. pose proof R as (E1 & E2 & E3 & W & EH & LP & NB & _ & F).
  unfold a_reset. set (h := counts a) in *. set (n := length (bins h)) in *.
  assert (N0 : 0 < inject_Z (Z.of_nat n)) by (unfold Qlt; cbn [Qnum Qden inject_Z]; lia).
  assert (RW : bin_width (h_reset exact h) = Fin ((hi + - lo) / inject_Z (Z.of_nat n))).
  { unfold h_reset. cbn [bin_width]. rewrite E1, E2, NB. cbn [ndiv nsub of_int exact xdiv xsub xadd xopp]. rewrite (proj2 (Qeq_bool_false _ _)) by lra. reflexivity. }
  assert (WQ : (hi + - lo) / inject_Z (Z.of_nat n) == w) by (rewrite EH; unfold edge; field; lra).
  change (num_bins (h_reset exact h)) with (num_bins h). rewrite NB, Nat2Z.id.
  pose proof (zero_vals_ok exact n [] (val_bins a) LV) as Z. cbn [app length Z.of_nat] in Z. rewrite Z. cbn [bind].
  eexists. exists ((hi + - lo) / inject_Z (Z.of_nat n)). split; [reflexivity|]. unfold AR, HR, scal. cbn [counts val_bins].
  assert (LB : length (bins (h_reset exact h)) = n) by (cbn [h_reset bins]; apply repeat_length).
  rewrite LB, RW. set (w' := (hi + - lo) / inject_Z (Z.of_nat n)) in *. repeat split; try apply SC; auto.
  - rewrite WQ. exact W.
  - unfold edge. rewrite WQ. exact EH.
  - intros i c Ec. cbn [h_reset bins] in Ec. now apply nth_repeat0 in Ec.
  - constructor.
  - apply repeat_length.
  - intros i x Ei. apply nth_repeat_any in Ei. subst x. apply zero_sum. intros y d [].
Qed.
