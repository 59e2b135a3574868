(** StatsQuantile: the invariant over whole histories. *)
From Coq Require Import List Arith ZArith QArith Qround NArith Lia Bool Permutation Sorted ZifyBool ZifyNat ZifyN Lqa.
From Verif Require Import Common CommonFacts ListFacts Arith Quantile_Model Quantile_Spec Quantile_Facts Quantile_Merge Quantile_Bin Quantile_Collapse Quantile_Proofs Quantile_Query Quantile_Error.
Import ListNotations.
Local Open Scope nat_scope.

Record Inv (s : quantile) (F : fulls) (P X : list Z) (E : nat) : Prop := {
  in_rep : Rep s F P;
  in_count : fcount (nbuffers s) (buffer_size s) F P = length X;
  in_kept : forall x, In x (kept F P) -> In x X;
  in_delta : (delta (collapse_even_low s) <= Z.of_nat (hidF (nbuffers s) F))%Z;
  in_err : forall p, down_closed p ->
    (Z.abs (2 * Z.of_nat (est p (nbuffers s) F P) - 2 * Z.of_nat (cnt p X) - delta (collapse_even_low s)) <= Z.of_nat (E + hidF (nbuffers s) F))%Z
}.

Lemma Rep_len s F P : Rep s F P -> full_len (buffer_size s) F /\ length F < nbuffers s.
Proof.
  intros [[R _]|((Sh & _) & -> & ->)].
  - split; [|apply (rf_lt _ _ _ R)]. intros b Hb. apply In_nth_error in Hb. destruct Hb as (j & E). destruct (rf_full _ _ _ R j b E) as (_ & A & _). exact A.
  - split; [intros b []|]. assert (H := sh_nb _ Sh). simpl. lia.
Qed.

Lemma addQ_inv s F P X E v : Inv s F P X E -> (q_count s < 10 ^ 14)%Z ->
  exists s' F' P', addQuantile s v = Ok s' /\ Inv s' F' P' (X ++ [v]) E /\ RepF s' F' P' /\ P' <> [] /\ same s s'
    /\ astep (nbuffers s) (buffer_size s) (collapse_even_low s) F P v (collapse_even_low s') F' P'.
Proof.
  intros [R C K D Er] Cnt. assert (Sh := Rep_shape _ _ _ R). assert (HN := sh_nb _ Sh). assert (HB := sh_bs _ Sh). assert (HB1 : 1 <= buffer_size s) by lia.
  destruct (Rep_len _ _ _ R) as [FL LF]. destruct (add_spec s F P v R Cnt) as (s' & e' & F' & P' & E1 & St & R' & N & Sm & Ev).
  exists s', F', P'. destruct Sm as (S1 & S2 & S3 & S4 & S5). subst e'. split; auto. split; [|split; [auto|split; [auto|split; [repeat split; auto|auto]]]].
  split; rewrite ?S1, ?S2.
  - left. auto.
  - rewrite (astep_count _ _ HN HB1 _ _ _ _ _ _ _ St FL LF), C, app_length. simpl. lia.
  - intros x Hx. apply in_or_app. destruct (astep_kept _ _ HN HB1 _ _ _ _ _ _ _ x St FL Hx) as [H| ->]; simpl; auto.
  - destruct (astep_hidden _ _ HN HB1 _ _ _ _ _ _ _ St FL LF) as [(H1 & H2 & H3)|(H1 & H2 & F1 & l & H3 & H4 & H5)].
    + rewrite H1, H3. auto.
    + rewrite H5. unfold delta. destruct (collapse_even_low s'); lia.
  - intros p Dp. apply (astep_error _ _ HN HB1 (collapse_even_low s) F P v); auto.
Qed.

(** adding a list of values, without touching the count *)
Fixpoint adds (s : quantile) (l : list Z) : res quantile :=
  match l with [] => Ok s | v :: r => let! s' := addQuantile s v in adds s' r end.
Lemma adds_app s l1 l2 : adds s (l1 ++ l2) = bind (adds s l1) (fun s' => adds s' l2).
Proof. revert s; induction l1 as [|x l1 IH]; intros; simpl; auto. destruct (addQuantile s x); simpl; auto. Qed.

Lemma adds_inv l : forall s F P X E, Inv s F P X E -> (q_count s < 10 ^ 14)%Z ->
  exists s' F' P', adds s l = Ok s' /\ Inv s' F' P' (X ++ l) E /\ same s s'.
Proof.
  induction l as [|v l IH]; intros s F P X E I C.
  - exists s, F, P. rewrite app_nil_r. split; auto. split; auto. apply same_refl.
  - destruct (addQ_inv s F P X E v I C) as (s1 & F1 & P1 & E1 & I1 & _ & _ & S1 & _). destruct (IH s1 F1 P1 (X ++ [v]) E I1) as (s2 & F2 & P2 & E2 & I2 & S2).
    { destruct S1 as (_ & _ & _ & -> & _). exact C. }
    exists s2, F2, P2. cbn [adds]. rewrite E1. cbn [bind]. split; auto. split. { now rewrite <- app_assoc in I2. } eapply same_trans; eauto.
Qed.

Lemma add_times_adds n v s : add_times n v s = adds s (repeat v n).
Proof. revert s; induction n as [|n IH]; intros; simpl; auto. destruct (addQuantile s v); simpl; auto. Qed.

Lemma add_buffer_adds t i n c vs w s : nth_error (all_buffers t) i = Some (Some c) -> nth_error (buffer_weight t) i = Some (Z.of_nat w) ->
  firstn n c = map Some vs -> length vs = n -> add_buffer t i n s = adds s (stretch w vs).
Proof.
  intros Eb Ew Ec L. unfold add_buffer, buffer_of. rewrite (get_nth _ _ _ Eb). cbn [bind]. rewrite (get_nth _ _ _ Ew). cbn [bind]. rewrite Nat2Z.id.
  assert (H : forall us k s, (forall j u, nth_error us j = Some u -> nth_error c (k + j) = Some (Some u)) ->
    for_each (fun j s => let! v := get c j in match v with Some v => add_times w v s | None => UB end) (seq k (length us)) s = adds s (stretch w us)).
  { induction us as [|u us IH]; intros k s0 H; [reflexivity|]. cbn [length seq]. rewrite for_each_cons. specialize (H 0 u eq_refl) as H0. rewrite Nat.add_0_r in H0.
    rewrite (get_nth _ _ _ H0). cbn [bind]. rewrite add_times_adds, stretch_cons, adds_app. destruct (adds s0 (repeat u w)); cbn [bind]; auto. apply IH.
    intros j x E. specialize (H (S j) x E). now rewrite Nat.add_succ_r in H. }
  rewrite <- L at 1. apply H. intros j u E. cbn [Nat.add]. rewrite <- (nth_error_firstn_lt c n) by (apply nth_error_lt in E; lia). rewrite Ec, nth_error_map, E. reflexivity.
Qed.

Lemma add_fulls_adds t s : forall F k, (forall i b, nth_error F i = Some b -> full_ok t (k + i) b) ->
  for_each (fun i s => add_buffer t i (buffer_size t) s) (seq k (length F)) s = adds s (massL (weigh (nbuffers t - k) F)).
Proof.
  intros F. revert s. induction F as [|x F IH]; intros s k H; [reflexivity|]. cbn [length seq]. rewrite for_each_cons.
  destruct (H 0 x eq_refl) as (A1 & A2 & A3 & A4 & A5 & A6). rewrite Nat.add_0_r in *.
  rewrite (add_buffer_adds t k (buffer_size t) _ (snd x) _ s A1 A4); auto. 2: { rewrite <- A2, <- (map_length Some), firstn_all. reflexivity. }
  cbn [weigh massL flat_map fst snd]. rewrite adds_app. destruct (adds s (stretch _ _)); cbn [bind]; auto.
  rewrite IH. { unfold massL. now replace (nbuffers t - S k) with (nbuffers t - k - 1) by lia. } intros i b E. specialize (H (S i) b E). now rewrite Nat.add_succ_r in H.
Qed.

(** ** add(Stats): the copying path *)
Definition copy_body (t : quantile) := fun i s =>
        let! c := buffer_of t i in
        let! a := put (all_buffers s) i (Some c) in
        let! w := get (buffer_weight t) i in
        let! l := get (buffer_level t) i in
        let! so := get (buffer_sorted t) i in
        let! ws := put (buffer_weight s) i w in
        let! ls := put (buffer_level s) i l in
        let! ss := put (buffer_sorted s) i so in
        Ok (set_meta (set_bufs s a) ws ls ss).

Lemma copy_spec s t : Shape s -> Shape t -> nbuffers s = nbuffers t ->
  forall n, n <= nbuffers s -> (forall i, i < n -> exists c, nth_error (all_buffers t) i = Some (Some c)) ->
  exists a w l so, for_each (copy_body t) (seq 0 n) s = Ok (set_meta (set_bufs s a) w l so)
   /\ length a = nbuffers s /\ length w = nbuffers s /\ length l = nbuffers s /\ length so = nbuffers s
   /\ (forall i, i < n -> nth_error a i = nth_error (all_buffers t) i /\ nth_error w i = nth_error (buffer_weight t) i
         /\ nth_error l i = nth_error (buffer_level t) i /\ nth_error so i = nth_error (buffer_sorted t) i)
   /\ (forall i, n <= i -> nth_error a i = nth_error (all_buffers s) i).
Proof.
  intros Hs Ht En. induction n as [|n IH]; intros Ln Hc.
  - exists (all_buffers s), (buffer_weight s), (buffer_level s), (buffer_sorted s). destruct Hs. split; [now destruct s|]. split; auto. split; auto. split; auto. split; auto. split; auto. intros; lia.
  - destruct IH as (a & w & l & so & E & La & Lw & Ll & Lso & Eq & Ne); [lia|intros; apply Hc; lia|].
    rewrite seq_S, for_each_app, E. cbn [bind for_each Nat.add]. unfold copy_body, buffer_of. destruct (Hc n ltac:(lia)) as (c & Ec). rewrite (get_nth _ _ _ Ec). cbn [bind]. fields.
    rewrite put_ok by lia. cbn [bind].
    destruct (get_lt (buffer_weight t) n) as (w1 & Ew & Gw); [rewrite (sh_wt _ Ht); lia|]. destruct (get_lt (buffer_level t) n) as (l1 & El & Gl); [rewrite (sh_lev _ Ht); lia|].
    destruct (get_lt (buffer_sorted t) n) as (s1 & Es & Gs); [rewrite (sh_sor _ Ht); lia|]. rewrite Gw, Gl, Gs. cbn [bind]. do 3 (rewrite put_ok by lia; cbn [bind]).
    eexists _, _, _, _. split; [reflexivity|]. rewrite !length_upd. split; auto. split; auto. split; auto. split; auto. split.
    + intros i Hi. destruct (Nat.eq_dec i n) as [->|N].
      * rewrite !nth_error_upd_eq by lia. rewrite Ec, Ew, El, Es. auto.
      * rewrite !nth_error_upd_neq by lia. apply Eq. lia.
    + intros i Hi. rewrite nth_error_upd_neq by lia. apply Ne. lia.
Qed.

Lemma Rep_empty s F P : Rep s F P -> fcount (nbuffers s) (buffer_size s) F P = 0 -> F = [] /\ P = [].
Proof.
  intros R C. assert (Sh := Rep_shape _ _ _ R). destruct (Rep_len _ _ _ R) as [FL LF]. unfold fcount in C. assert (P = []) by (destruct P; simpl in C; auto; lia). subst P. split; auto.
  destruct R as [[_ [N|N]]|(_ & N & _)]; auto. congruence.
Qed.
Lemma Rep_cond s F P : Rep s F P ->
  ((cur_buffer s =? -1) || ((cur_buffer s =? 0) && (cur_buffer_pos s =? 0)%nat))%Z = true <-> fcount (nbuffers s) (buffer_size s) F P = 0.
Proof.
  intros R. split.
  - intros H. destruct R as [[R N]|(_ & -> & ->)]; [|unfold fcount; simpl; lia]. rewrite (rf_cur _ _ _ R), (rf_pos _ _ _ R) in H.
    assert (length F = 0 /\ length P = 0) as [H1 H2] by lia. destruct F, P; try discriminate. unfold fcount; simpl; lia.
  - intros H. destruct (Rep_empty s F P R H) as [-> ->]. destruct R as [[R _]|((_ & C & _) & _)].
    + rewrite (rf_cur _ _ _ R), (rf_pos _ _ _ R). reflexivity.
    + rewrite C. reflexivity.
Qed.

Lemma merge_copy s t Fs Ps Ft Pt Xt Es Et : Inv s Fs Ps [] Es -> Inv t Ft Pt Xt Et -> q_count s = 0%Z ->
  nbuffers s = nbuffers t -> buffer_size s = buffer_size t ->
  exists s', q_merge s t = Ok s' /\ Inv s' Ft Pt Xt Et /\ nbuffers s' = nbuffers s /\ buffer_size s' = buffer_size s /\ q_nbound s' = q_nbound s /\ q_count s' = q_count t.
Proof.
  intros Is It Cs En Eb. assert (Rs := in_rep _ _ _ _ _ Is). assert (Rt := in_rep _ _ _ _ _ It).
  assert (Hs := Rep_shape _ _ _ Rs). assert (Ht := Rep_shape _ _ _ Rt). unfold q_merge. fields. rewrite Cs.
  assert (Cd : ((cur_buffer s =? -1) || ((cur_buffer s =? 0) && (cur_buffer_pos s =? 0)%nat))%Z = true) by (apply (Rep_cond s Fs Ps Rs); apply (in_count _ _ _ _ _ Is)).
  rewrite Cd. replace (buffer_size s =? buffer_size t) with true by lia. replace (nbuffers s =? nbuffers t) with true by lia. cbn [andb].
  replace (0 + q_count t =? q_count t)%Z with true by lia. cbn [invariant bind].
  assert (HN := sh_nb _ Hs).
  assert (Ct : (-1 <= cur_buffer t < Z.of_nat (nbuffers t))%Z).
  { destruct Rt as [[R _]|((_ & C & _) & _)]; [rewrite (rf_cur _ _ _ R); assert (L := rf_lt _ _ _ R); lia|rewrite C; lia]. }
  replace (cur_buffer t <? Z.of_nat (nbuffers s))%Z with true by lia. cbn [invariant bind]. fold (copy_body t).
  set (s0 := set_count s (0 + q_count t)%Z). assert (Hs0 : Shape s0) by (destruct Hs; split; auto).
  destruct (copy_spec s0 t Hs0 Ht En (Z.to_nat (cur_buffer t + 1))) as (a & w & l & so & E & La & Lw & Ll & Lso & Eq & Ne).
  { unfold s0; fields. lia. }
  { intros i Hi. destruct Rt as [[R _]|((_ & C & _) & _)]; [|lia]. rewrite (rf_cur _ _ _ R) in Hi. destruct (Nat.eq_dec i (length Ft)) as [->|N].
    - destruct (rf_buf _ _ _ R) as (c & Ec & _). eauto.
    - destruct (nth_error Ft i) as [b|] eqn:EF; [|apply nth_error_None in EF; lia]. destruct (rf_full _ _ _ R i b EF) as (A & _). eauto. }
  rewrite E. cbn [bind]. eexists. split; [reflexivity|]. fields. unfold s0 in *; fields. revert La Lw Ll Lso Ne. fields. intros.
  split; [|repeat split; lia].
  assert (Sh' : Shape (set_even (set_cpos (set_cur (set_meta (set_bufs (set_count s (0 + q_count t)%Z) a) w l so) (cur_buffer t) (cur_buffer_pos t)) (collapse_pos t)) (collapse_even_low t))).
  { pose proof (sh_cells _ Ht) as CT. pose proof (sh_alloc _ Ht) as AT. pose proof (sh_cp _ Ht) as CP. destruct Hs. split; fields; auto; try congruence.
    - intros i c Ei. destruct (Nat.lt_ge_cases i (Z.to_nat (cur_buffer t + 1))) as [H|H].
      + destruct (Eq i H) as (Q & _). rewrite Q in Ei. rewrite Eb. eauto.
      + rewrite Ne in Ei by lia. eauto.
    - intros Lz i Ei. destruct (Nat.lt_ge_cases i (Z.to_nat (cur_buffer t + 1))) as [H|H].
      + destruct (Eq i H) as (Q & _). rewrite Q in Ei. destruct Rt as [[R _]|((_ & C & _) & _)]; [|lia]. rewrite (rf_cur _ _ _ R) in H. destruct (Nat.eq_dec i (length Ft)) as [->|N].
        * destruct (rf_buf _ _ _ R) as (c & Ec & _). congruence.
        * destruct (nth_error Ft i) as [b|] eqn:EF; [|apply nth_error_None in EF; lia]. destruct (rf_full _ _ _ R i b EF) as (A & _). congruence.
      + rewrite Ne in Ei by lia. now apply (sh_alloc Lz i). }
  assert (R' : Rep (set_even (set_cpos (set_cur (set_meta (set_bufs (set_count s (0 + q_count t)%Z) a) w l so) (cur_buffer t) (cur_buffer_pos t)) (collapse_pos t)) (collapse_even_low t)) Ft Pt).
  { destruct Rt as [[R N]|((_ & C & Pp) & -> & ->)].
    - left. split; auto. pose proof R as [Sh C Lt Pp Le Fu Mo (c & Ec & Fc) Wt Lv (so1 & Eso & Hso)].
      assert (Eqi : forall i, i <= length Ft -> nth_error a i = nth_error (all_buffers t) i /\ nth_error w i = nth_error (buffer_weight t) i
         /\ nth_error l i = nth_error (buffer_level t) i /\ nth_error so i = nth_error (buffer_sorted t) i) by (intros i Hi; apply Eq; lia).
      destruct (Eqi (length Ft) (le_n _)) as (Q1 & Q2 & Q3 & Q4).
      split; fields; try congruence; auto.
      + intros i b Ei. destruct (Fu i b Ei) as (A1 & A2 & A3 & A4 & A5 & A6). assert (Hi : i < length Ft) by (now apply nth_error_lt in Ei). destruct (Eqi i ltac:(lia)) as (B1 & B2 & B3 & B4).
        unfold full_ok; fields. rewrite B1, B2, B3, B4, En, Eb. repeat (split; auto).
      + exists c. split; congruence.
      + exists so1. split; auto. congruence.
    - right. split; auto. split; auto. fields. split; congruence. }
  destruct It as [_ C K D Er]. split; fields; rewrite ?En, ?Eb; auto.
Qed.

(** ** add(Stats): re-adding the retained values *)
Lemma merge_slow s t Fs Ps Ft Pt Xs Xt Es Et : Inv s Fs Ps Xs Es -> Inv t Ft Pt Xt Et -> (q_count s + q_count t < 10 ^ 14)%Z ->
  ~ (Xs = [] /\ nbuffers s = nbuffers t /\ buffer_size s = buffer_size t) -> Xt <> [] ->
  exists s' F' P', q_merge s t = Ok s' /\ Inv s' F' P' (Xs ++ Xt) (Es + Et + (hidF (nbuffers t) Ft + Z.to_nat (delta (collapse_even_low t))))
    /\ nbuffers s' = nbuffers s /\ buffer_size s' = buffer_size s /\ q_nbound s' = q_nbound s /\ q_count s' = (q_count s + q_count t)%Z.
Proof.
  intros Is It Cs Nf Nt. assert (Rs := in_rep _ _ _ _ _ Is). assert (Rt := in_rep _ _ _ _ _ It). unfold q_merge. fields.
  replace (_ && _ && _) with false.
  2: { symmetry. apply not_true_iff_false. intros H. apply andb_true_iff in H. destruct H as [H H3]. apply andb_true_iff in H. destruct H as [H1 H2]. apply Nf. split; [|lia].
       apply (Rep_cond s Fs Ps Rs) in H1. rewrite (in_count _ _ _ _ _ Is) in H1. now destruct Xs. }
  destruct Rt as [[R _]|(_ & -> & ->)]. 2: { pose proof (in_count _ _ _ _ _ It) as H. unfold fcount in H. simpl in H. destruct Xt; simpl in H; [congruence|lia]. }
  pose proof R as [Sh C Lt Pp Le Fu Mo (c & Ec & Fc) Wt Lv (so1 & Eso & Hso)]. rewrite C, Nat2Z.id, index_nat. cbn [bind].
  set (s0 := set_count s (q_count s + q_count t)%Z).
  rewrite (add_fulls_adds t s0 Ft 0) by (intros; now apply Fu). rewrite Nat.sub_0_r.
  assert (Hs0 : Inv s0 Fs Ps Xs Es).
  { destruct Is as [R0 C0 K0 D0 E0]. split; auto. destruct R0 as [[R0 N0]|(R0 & N0)].
    - left. split; auto. destruct R0 as [Sh0 ? ? ? ? ? ? ? ? ? ?]. split; auto. destruct Sh0; split; auto.
    - right. split; auto. destruct R0 as (Sh0 & ?). split; auto. destruct Sh0; split; auto. }
  assert (Eq : bind (adds s0 (massL (weigh (nbuffers t) Ft))) (fun s1 => add_buffer t (length Ft) (cur_buffer_pos t) s1)
             = adds s0 (massL (blist (nbuffers t) Ft Pt))).
  { rewrite blist_mass, adds_app. destruct (adds s0 _) as [s1| | |]; cbn [bind]; auto. rewrite Pp.
    rewrite (add_buffer_adds t (length Ft) (length Pt) c Pt 1 s1 Ec Wt Fc eq_refl). now rewrite stretch_1. }
  rewrite Eq. destruct (adds_inv (massL (blist (nbuffers t) Ft Pt)) s0 Fs Ps Xs Es Hs0) as (s' & F' & P' & E' & I' & (S1 & S2 & S3 & S4 & S5)). { unfold s0; fields. lia. }
  exists s', F', P'. split; auto. split; [|unfold s0 in *; auto].
  destruct I' as [R' C' K' D' Er']. destruct It as [_ Ct Kt Dt Ert]. split; auto.
  - rewrite C', !app_length. f_equal. rewrite (blist_mass_length t Ft Pt R). exact Ct.
  - intros x Hx. apply K' in Hx. apply in_app_or in Hx. apply in_or_app. destruct Hx as [Hx|Hx]; auto. right. apply Kt. apply massL_in in Hx. now rewrite blist_kept in Hx.
  - intros p Dp. specialize (Er' p Dp). specialize (Ert p Dp). rewrite cnt_app in *. fold (est p (nbuffers t) Ft Pt) in Er'.
    assert (0 <= delta (collapse_even_low t) <= 1)%Z by (unfold delta; destruct (collapse_even_low t); lia). lia.
Qed.

(** ** Queries *)
Lemma target_spec n q : (1 <= n < 10 ^ 14)%Z -> (0 <= q <= 1)%Q ->
  target_index (A := exact) n (Fin q) = Ok (query_rank n q - 1)%Z /\ (1 <= query_rank n q <= n)%Z.
Proof.
  intros Hn Hq. unfold target_index. cbn [exact num nmul nsub ndiv of_int nopp nfloor xmul xsub xadd xopp xdiv].
  assert (Q0 : Qeq_bool (inject_Z (10 ^ 15)) 0 = false) by (vm_compute; reflexivity). rewrite Q0. cbn [xopp xadd xmul].
  set (x := (inject_Z n * (q + - (inject_Z 1 / inject_Z (10 ^ 15))))%Q).
  assert (Ex : (x == inject_Z n * (q - (1 # 1000000000000000)))%Q). { unfold x. apply Qmult_comp; [reflexivity|]. apply Qplus_comp; [reflexivity|]. apply Qopp_comp. vm_compute. reflexivity. }
  assert (En : (0 <= inject_Z n)%Q) by (unfold Qle; simpl; lia).
  assert (Eu : (x <= inject_Z n)%Q). { rewrite Ex. nra. }
  assert (En' : (inject_Z n <= inject_Z (10 ^ 14))%Q) by (unfold Qle; simpl; lia).
  assert (El : (inject_Z (-1) <= x)%Q).
  { rewrite Ex. unfold inject_Z at 1. assert (inject_Z (10 ^ 14) == 100000000000000 # 1)%Q by (vm_compute; reflexivity). nra. }
  assert (Ec : Qceiling x = Qceiling (inject_Z n * (q - (1 # 1000000000000000)))%Q) by (now apply Qceiling_comp).
  assert (Hc1 : (Qceiling x <= n)%Z). { rewrite <- (Qceiling_Z n). now apply Qceiling_resp_le. }
  assert (Hc2 : (-1 <= Qceiling x)%Z). { rewrite <- (Qceiling_Z (-1)). now apply Qceiling_resp_le. }
  unfold query_rank. rewrite <- Ec. change (- Qfloor (- x))%Z with (Qceiling x).
  replace (- 2 ^ 63 <=? Qceiling x)%Z with true by lia. replace (Qceiling x <? 2 ^ 63)%Z with true by lia. cbn [andb].
  split; [|lia]. destruct (Qceiling x - 1 <? 0)%Z eqn:H1.
  - replace (0 =? n)%Z with false by lia. f_equal. lia.
  - replace (Qceiling x - 1 =? n)%Z with false by lia. f_equal. lia.
Qed.

Lemma query_spec s F P X E q allow : Inv s F P X E -> q_count s = Z.of_nat (length X) -> (q_count s < 10 ^ 14)%Z -> X <> [] ->
  (0 <= q <= 1)%Q -> (allow = true \/ q_count s <= q_nbound s)%Z ->
  exists v s', getQuantile (A := exact) s (Fin q) allow = Ok (Some v, s') /\ Inv s' F (isort P) X E /\ same s s'
    /\ (1 <= query_rank (q_count s) q <= q_count s)%Z
    /\ nth_error (isort (massL (blist (nbuffers s) F P))) (Z.to_nat (query_rank (q_count s) q - 1)) = Some v.
Proof.
  intros I Cn Cs NX Hq Ha. assert (CX : (1 <= q_count s)%Z) by (destruct X; simpl in *; [congruence|lia]).
  pose proof I as [R C K D Er]. unfold getQuantile. replace (q_count s =? 0)%Z with false by lia.
  replace ((q_count s <=? q_nbound s)%Z || allow) with true by (destruct Ha as [-> |Ha]; [now rewrite orb_true_r|symmetry; apply orb_true_iff; left; lia]). cbn [invariant bind].
  cbn [nle of_int exact xle]. destruct Hq as [Hq1 Hq2]. assert (B1 : Qle_bool (inject_Z 0) q = true) by (apply Qle_bool_iff; exact Hq1). assert (B2 : Qle_bool q (inject_Z 1) = true) by (apply Qle_bool_iff; exact Hq2).
  rewrite B1, B2. cbn [andb invariant bind].
  destruct R as [[R N]|(_ & -> & ->)]. 2: { unfold fcount in C. simpl in C. destruct X; simpl in *; [congruence|lia]. }
  assert (NP : P <> []). { destruct N as [N| ->]; auto. intros ->. unfold fcount in C. simpl in C. destruct X; simpl in *; [congruence|lia]. }
  destruct (sort_for_query_spec s F P R) as (s' & E1 & R1 & (S1 & S2 & S3 & S4 & S5) & Ev). rewrite E1. cbn [bind]. rewrite S4.
  replace (q_count s <? 10 ^ 14)%Z with true by lia. cbn [invariant bind].
  destruct (target_spec (q_count s) q) as [T1 T2]; [lia|split; auto|]. rewrite T1. cbn [bind].
  assert (NP' : isort P <> []). { intros H. apply NP. pose proof (isort_length P) as L. rewrite H in L. now destruct P. }
  assert (FC : fcount (nbuffers s) (buffer_size s) F (isort P) = fcount (nbuffers s) (buffer_size s) F P) by (unfold fcount; now rewrite isort_length).
  destruct (bin_search_spec s' F (isort P) (query_rank (q_count s) q - 1)%Z R1 (isort_sorted P) NP') as (v & E2 & V).
  { rewrite S1, S2, S4, FC, C. exact Cn. } { rewrite S4. lia. }
  rewrite E2. cbn [bind]. exists v, s'. split; auto.
  assert (PM : Permutation (massL (blist (nbuffers s) F (isort P))) (massL (blist (nbuffers s) F P))). { rewrite !blist_mass. apply Permutation_app_head, isort_perm. }
  split; [|split; [repeat split; auto|split; auto]].
  - split; rewrite ?S1, ?S2, ?Ev; auto. { left. auto. } { now rewrite FC. }
    + intros x Hx. apply K. unfold kept in *. apply in_app_or in Hx. apply in_or_app. destruct Hx as [Hx|Hx]; auto. right. now apply (Permutation_in x (isort_perm P)) in Hx.
    + intros p Dp. specialize (Er p Dp). unfold est in *. now rewrite (cnt_perm p _ _ PM).
  - rewrite S1 in V. rewrite (isort_unique _ (isort (massL (blist (nbuffers s) F P)))) in V; auto; [|apply isort_sorted].
    rewrite PM. symmetry. apply isort_perm.
Qed.

(** The position of a returned value among all samples. *)
Lemma position s F P X E v t : Inv s F P X E -> nth_error (isort (massL (blist (nbuffers s) F P))) t = Some v ->
  exists p, element_at X p v /\ (2 * Z.abs (p - Z.of_nat t) <= Z.of_nat (E + hidF (nbuffers s) F) + delta (collapse_even_low s))%Z.
Proof.
  intros [R C K D Er] V. set (M := massL (blist (nbuffers s) F P)) in *.
  destruct (count_by_nth _ _ _ (isort_sorted M) V) as [V1 V2]. rewrite !(cnt_perm _ _ _ (isort_perm M)) in *.
  assert (VM : In v X). { apply K. apply nth_error_In in V. apply (Permutation_in v (isort_perm M)) in V. apply massL_in in V. now rewrite blist_kept in V. }
  pose proof (Er _ (lt_p_down v)) as E1. pose proof (Er _ (le_p_down v)) as E2. unfold est in *. fold M in E1, E2.
  assert (Lt : cnt (lt_p v) X < cnt (le_p v) X).
  { clear - VM. induction X as [|x X IH]; [destruct VM|]. rewrite !cnt_cons. destruct VM as [->|VM].
    - unfold lt_p at 1, le_p at 1. rewrite Z.ltb_irrefl, Z.leb_refl. assert (cnt (lt_p v) X <= cnt (le_p v) X) by (apply cnt_mono; unfold lt_p, le_p; intros; lia). lia.
    - specialize (IH VM). unfold lt_p at 1, le_p at 1. destruct (Z.ltb x v) eqn:A, (Z.leb x v) eqn:B; lia. }
  set (p := if t <? cnt (lt_p v) X then cnt (lt_p v) X else if t <? cnt (le_p v) X then t else cnt (le_p v) X - 1).
  exists (Z.of_nat p). split.
  - exists (isort X). split; [symmetry; apply isort_perm|]. split; [apply isort_sorted|]. split; [lia|]. rewrite Nat2Z.id.
    apply nth_by_count; [apply isort_sorted|]. rewrite !(cnt_perm _ _ _ (isort_perm X)). unfold p. destruct (t <? cnt (lt_p v) X) eqn:A; [lia|]. destruct (t <? cnt (le_p v) X) eqn:B; lia.
  - assert (0 <= delta (collapse_even_low s))%Z by (unfold delta; destruct (collapse_even_low s); lia).
    unfold p. destruct (t <? cnt (lt_p v) X) eqn:A; [lia|]. destruct (t <? cnt (le_p v) X) eqn:B; lia.
Qed.

(** ** Whole histories. [good] is an additional relation between a history and its
    inherited error. *)
Section Histories.
Variable good : hist -> nat -> Prop.
Hypothesis g_new : forall nbound lazy nb bs, good (HNew nbound lazy nb bs) 0.
Hypothesis g_add : forall h v E, good h E -> good (HAdd h v) E.
Hypothesis g_reset : forall h, good (HReset h) 0.
Hypothesis g_query : forall h q a E, good h E -> good (HQuery h q a) E.
Hypothesis g_copy : forall h o E, samples h = [] -> hnb h = hnb o -> hbs h = hbs o -> good o E -> good (HMerge h o) E.
Hypothesis g_slow : forall h o Es Et t F P, ~ (samples h = [] /\ hnb h = hnb o /\ hbs h = hbs o) -> samples o <> [] -> good h Es -> good o Et ->
  eval o = Ok t -> Inv t F P (samples o) Et -> nbuffers t = hnb o -> buffer_size t = hbs o ->
  good (HMerge h o) (Es + Et + (hidF (nbuffers t) F + Z.to_nat (delta (collapse_even_low t)))).

Theorem eval_inv h : legal h -> small h -> exists s F P E, eval h = Ok s /\ Inv s F P (samples h) E /\ good h E
  /\ q_count s = Z.of_nat (length (samples h)) /\ nbuffers s = hnb h /\ buffer_size s = hbs h /\ q_nbound s = hbound h.
Proof.
  induction h as [nbound lazy nb bs|h IH v|h IHh o IHo|h IH|h IH q allow]; intros Lg Sm.
  - destruct Lg as ((H1 & H2 & H3) & H4). destruct (qinit_spec nbound lazy nb bs H1 H2 H3 H4) as (s & E & R & En & Eb & Eq & Ec & Ev).
    exists s, [], [], 0. split; auto. split; [|auto].
    split; rewrite ?Ev; [exact R|unfold fcount; cbn; lia|intros x []|cbn; lia|intros; cbn; lia].
  - destruct Sm as [Sc Sm]. destruct (IH Lg Sm) as (s & F & P & E & Ee & I & G & C & Sh). cbn [samples] in *. rewrite app_length in Sc. simpl in Sc.
    cbn [eval]. rewrite Ee. cbn [bind]. unfold q_add. set (s0 := set_count s (q_count s + 1)%Z).
    assert (I0 : Inv s0 F P (samples h) E).
    { destruct I as [R0 C0 K0 D0 E0]. split; auto. destruct R0 as [[R0 N0]|(R0 & N0)].
      - left. split; auto. destruct R0 as [Sh0 ? ? ? ? ? ? ? ? ? ?]. split; auto. destruct Sh0; split; auto.
      - right. split; auto. destruct R0 as (Sh0 & ?). split; auto. destruct Sh0; split; auto. }
    destruct (addQ_inv s0 F P (samples h) E v I0) as (s' & F' & P' & E' & I' & _ & _ & (S1 & S2 & S3 & S4 & S5) & _). { unfold s0; fields. lia. }
    exists s', F', P', E. split; auto. split; auto. split; auto. destruct Sh as (A1 & A2 & A3). unfold hnb, hbs, hbound in *. cbn [shape].
    revert S1 S2 S3 S4. unfold s0; fields. intros S1 S2 S3 S4. split; [|split; [|split]]; try congruence. rewrite S4, C, app_length. simpl. lia.
  - destruct Lg as (Lh & Lo & Lx). destruct Sm as (Sc & Sh & So). cbn [samples] in *. rewrite app_length in Sc.
    destruct (IHh Lh Sh) as (s & Fs & Ps & Es & Ees & Is & Gs & Cs & A1 & A2 & A3). destruct (IHo Lo So) as (t & Ft & Pt & Et & Eet & It & Gt & Ct & B1 & B2 & B3).
    cbn [eval]. rewrite Ees. cbn [bind]. rewrite Eet. cbn [bind].
    assert (Dec : {samples h = [] /\ hnb h = hnb o /\ hbs h = hbs o} + {~ (samples h = [] /\ hnb h = hnb o /\ hbs h = hbs o)}).
    { destruct (samples h); [|right; intros (X & _); discriminate]. destruct (Nat.eq_dec (hnb h) (hnb o)), (Nat.eq_dec (hbs h) (hbs o)); tauto. }
    destruct Dec as [(X1 & X2 & X3)|Nf].
    + rewrite X1 in Is, Cs. destruct (merge_copy s t Fs Ps Ft Pt (samples o) Es Et Is It Cs) as (s' & E' & I' & K1 & K2 & K3 & K4); try congruence.
      exists s', Ft, Pt, Et. rewrite X1. cbn [app]. split; auto. split; auto. split; [apply g_copy; auto|]. unfold hnb, hbs, hbound in *. cbn [shape]. repeat split; congruence.
    + assert (No : samples o <> []) by (destruct Lx; tauto).
      destruct (merge_slow s t Fs Ps Ft Pt (samples h) (samples o) Es Et Is It) as (s' & F' & P' & E' & I' & K1 & K2 & K3 & K4); auto. { lia. } { rewrite A1, A2, B1, B2. exact Nf. }
      eexists s', F', P', _. split; [exact E'|]. split; [exact I'|]. split; [apply (g_slow h o Es Et t Ft Pt); auto|]. unfold hnb, hbs, hbound in *. cbn [shape].
      rewrite app_length. split; [lia|]. repeat split; congruence.
  - destruct Sm as [Sc Sm]. destruct (IH Lg Sm) as (s & F & P & E & Ee & I & G & C & A1 & A2 & A3). cbn [eval]. rewrite Ee. cbn [bind].
    destruct (reset_spec s F P (in_rep _ _ _ _ _ I)) as (R & (S1 & S2 & S3 & S4 & S5) & Ev). revert S1 S2 S3 S4 S5. fields. intros.
    exists (q_reset s), [], [], 0. split; auto. split; [|split; [apply g_reset|]]. 2: { unfold hnb, hbs, hbound in *. cbn [shape samples length]. repeat split; congruence. }
    split; rewrite ?Ev; [exact R|unfold fcount; cbn; lia|intros x []|cbn; lia|intros; cbn; lia].
  - destruct Sm as [Sc Sm]. destruct Lg as (Lg & Hq & Ha). destruct (IH Lg Sm) as (s & F & P & E & Ee & I & G & C & A1 & A2 & A3). cbn [eval samples] in *. rewrite Ee. cbn [bind].
    assert (SX : {samples h = []} + {samples h <> []}) by (destruct (samples h); [left; auto|right; discriminate]). destruct SX as [SX|SX].
    + assert (C0 : q_count s = 0%Z) by (rewrite C, SX; reflexivity). unfold getQuantile. rewrite C0. cbn [Z.eqb bind]. exists s, F, P, E. repeat (split; auto).
    + destruct (query_spec s F P (samples h) E q allow I C) as (v & s' & E1 & I' & (S1 & S2 & S3 & S4 & S5) & _); auto. { lia. } { rewrite C, A3. exact Ha. }
      rewrite E1. cbn [bind]. exists s', F, (isort P), E. split; auto. split; auto. split; auto. unfold hnb, hbs, hbound in *. cbn [shape]. repeat split; congruence.
Qed.
End Histories.
