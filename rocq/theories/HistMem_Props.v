(** C107: the statistics classes give back the memory they take. *)
From Coq Require Import List Arith Lia Bool Permutation.
From Verif Require Import Common CommonFacts HistMem_Model HistMem_Spec.
Import ListNotations.

Definition paddr (p : ptr) : list nat := match p with Some a => [a] | None => [] end.
Definition owned_part (p : part) : list nat := paddr (bins p) ++ paddr (val_bins p) ++ paddr (samples p) ++ paddr (product p) ++ paddr (firstsamples p).
Definition owned_obj (o : option (list part)) : list nat := match o with Some ps => flat_map owned_part ps | None => [] end.
Definition owned (l : list (option (list part))) : list nat := flat_map owned_obj l.
Definition good (h : heap) (O : list nat) : Prop := NoDup O /\ Forall (fun a => nth_error h a = Some true) O.
Definition cnt (h : heap) : nat := length (filter (fun b => b) h).
(** the members that a class does not have are NULL, those that it has are not *)
Definition shaped (p : part) : Prop :=
  match kind p with
  | CStats => bins p = None /\ val_bins p = None /\ samples p = None /\ product p = None /\ firstsamples p = None
  | CUniform _ | CLog => bins p <> None /\ val_bins p = None /\ samples p = None /\ product p = None /\ firstsamples p = None
  | CUniformAccum | CLogAccum => bins p <> None /\ val_bins p <> None /\ samples p = None /\ product p = None /\ firstsamples p = None
  | CSeries => bins p = None /\ val_bins p = None /\ samples p <> None /\ product p <> None /\ firstsamples p <> None
  end.
Lemma good_perm h O O' : Permutation O O' -> good h O -> good h O'.
Proof. intros P (N & F). split; [now apply (Permutation_NoDup P)|]. rewrite Forall_forall in *. intros x Hx. apply F. now apply (Permutation_in x (Permutation_sym P)). Qed.
Lemma good_lt h O a : good h O -> In a O -> a < length h.
Proof. intros (_ & F) Hin. rewrite Forall_forall in F. apply nth_error_Some. rewrite (F a Hin). discriminate. Qed.
Lemma cnt_app h h' : cnt (h ++ h') = cnt h + cnt h'.
Proof. unfold cnt. rewrite filter_app, app_length. reflexivity. Qed.
Lemma good_alloc h O : good h O -> good (h ++ [true]) (length h :: O).
Proof.
  intros G. split.
  - constructor; [|exact (proj1 G)]. intros Hin. pose proof (good_lt _ _ _ G Hin). lia.
  - constructor; [now rewrite nth_error_app2, Nat.sub_diag by lia|]. apply Forall_forall. intros a Hin. rewrite nth_error_app1 by exact (good_lt _ _ _ G Hin). destruct G as (_ & F). rewrite Forall_forall in F. now apply F.
Qed.
Lemma nupd {A} (l : list A) i j a : nth_error (upd l i a) j = if i =? j then option_map (fun _ => a) (nth_error l j) else nth_error l j.
Proof. revert i j. induction l as [|x l IH]; intros [|i] [|j]; cbn; auto. now destruct (i =? j). Qed.
Lemma cnt_upd h a : nth_error h a = Some true -> cnt h = S (cnt (upd h a false)).
Proof. revert a. induction h as [|b h IH]; intros [|a] E; cbn in *; try discriminate. - now injection E as ->. - specialize (IH a E). unfold cnt in *. destruct b; cbn; lia. Qed.
Lemma good_delete h a O : good h (a :: O) -> delete_array h (Some a) = Ok (upd h a false) /\ good (upd h a false) O /\ cnt h = S (cnt (upd h a false)).
Proof.
  intros (N & F). inversion N as [|? ? Hn N']; subst. inversion F as [|? ? Ha F']; subst. cbn [delete_array]. rewrite Ha. split; [reflexivity|]. split; [|now apply cnt_upd]. split; [exact N'|].
  apply Forall_forall. intros b Hb. rewrite nupd. destruct (Nat.eqb_spec a b) as [->|]; [contradiction|]. rewrite Forall_forall in F'. now apply F'.
Qed.
Lemma good_drop h a O : good h (a :: O) -> good h O.
Proof. intros (N & F). inversion N; subst. inversion F; subst. now split. Qed.

Lemma total_cons c cs : total (c :: cs) = arrays_of c + total cs.
Proof. reflexivity. Qed.
Lemma construct_ok h O c h' p : good h O -> construct h c = (h', p) ->
  good h' (owned_part p ++ O) /\ shaped p /\ kind p = c /\ cnt h' = cnt h + arrays_of c.
Proof.
  intros G E. destruct c; cbn in E; injection E as <- <-; unfold shaped, owned_part; cbn [kind bins val_bins samples product firstsamples paddr app arrays_of]; rewrite ?cnt_app.
  - split; [exact G|]. repeat split; try easy; lia.
  - split; [now apply good_alloc|]. repeat split; try easy; unfold cnt; cbn; lia.
  - split; [now apply good_alloc|]. repeat split; try easy; unfold cnt; cbn; lia.
  - split; [eapply good_perm; [apply perm_swap|]; apply good_alloc; now apply good_alloc|]. repeat split; try easy; unfold cnt; cbn; lia.
  - split; [eapply good_perm; [apply perm_swap|]; apply good_alloc; now apply good_alloc|]. repeat split; try easy; unfold cnt; cbn; lia.
  - split; [eapply good_perm; [|apply good_alloc; apply good_alloc; apply good_alloc; exact G]|repeat split; try easy; unfold cnt; cbn; lia].
    eapply perm_trans; [apply perm_skip, perm_swap|]. eapply perm_trans; [apply perm_swap|]. apply perm_skip, perm_swap.
Qed.
Lemma construct_all_ok : forall cs h O h' ps, good h O -> construct_all h cs = (h', ps) ->
  good h' (flat_map owned_part ps ++ O) /\ Forall shaped ps /\ map kind ps = cs /\ cnt h' = cnt h + total cs.
Proof.
  induction cs as [|c cs IH]; intros h O h' ps G E; cbn in E.
  - injection E as <- <-. cbn. split; [exact G|]. split; [constructor|]. split; [reflexivity|]. lia.
  - destruct (construct h c) as [h1 p] eqn:E1. destruct (construct_all h1 cs) as [h2 ps2] eqn:E2. injection E as <- <-.
    destruct (construct_ok _ _ _ _ _ G E1) as (G1 & S1 & K1 & C1). destruct (IH _ _ _ _ G1 E2) as (G2 & S2 & K2 & C2).
    split; [|split; [now constructor|split; [cbn; congruence|rewrite total_cons; lia]]].
    eapply good_perm; [|exact G2]. cbn [flat_map]. rewrite !app_assoc. apply Permutation_app_tail. apply Permutation_app_comm.
Qed.
Lemma destroy_ok h O p : good h (owned_part p ++ O) -> shaped p -> is_series (kind p) = false ->
  exists h', destroy h p = Ok h' /\ good h' O /\ cnt h = cnt h' + arrays_of (kind p) - length (filter is_logaccum [kind p]) /\ length (filter is_logaccum [kind p]) <= arrays_of (kind p).
Proof.
  destruct p as [k b v s q f]. unfold shaped, owned_part, destroy. cbn [kind bins val_bins samples product firstsamples]. intros G S NS.
  destruct k; cbn [is_series] in NS; try discriminate; destruct S as (Sb & Sv & -> & -> & ->); try rewrite Sb in *; try rewrite Sv in *; cbn [paddr app] in G; cbn [filter is_logaccum length arrays_of].
  - exists h. split; [reflexivity|]. split; [exact G|]. lia.
  - destruct b as [b|]; [|easy]. cbn [paddr app] in G. destruct (good_delete _ _ _ G) as (-> & G' & C). eexists. split; [reflexivity|]. split; [exact G'|]. lia.
  - destruct b as [b|]; [|easy]. cbn [paddr app] in G. destruct (good_delete _ _ _ G) as (-> & G' & C). eexists. split; [reflexivity|]. split; [exact G'|]. lia.
  - destruct b as [b|]; [|easy]. destruct v as [v|]; [|easy]. cbn [paddr app] in G. apply (good_perm h _ (v :: b :: O)) in G; [|apply perm_swap]. destruct (good_delete _ _ _ G) as (-> & G' & C). cbn [bind]. destruct (good_delete _ _ _ G') as (-> & G'' & C'). eexists. split; [reflexivity|]. split; [exact G''|]. lia.
  - destruct b as [b|]; [|easy]. destruct v as [v|]; [|easy]. cbn [paddr app] in G. destruct (good_delete _ _ _ G) as (-> & G' & C). cbn [bind delete_array]. eexists. split; [reflexivity|]. split; [now apply (good_drop _ v)|]. lia.
Qed.
Lemma filter_logaccum_le cs : length (filter is_logaccum cs) <= total cs.
Proof. induction cs as [|c cs IH]; [cbn; lia|]. rewrite total_cons. destruct c; cbn [filter is_logaccum length arrays_of]; lia. Qed.
Lemma destroy_all_ok : forall ps h O, good h (flat_map owned_part ps ++ O) -> Forall shaped ps -> existsb is_series (map kind ps) = false ->
  exists h', destroy_all h ps = Ok h' /\ good h' O /\ cnt h + length (filter is_logaccum (map kind ps)) = cnt h' + total (map kind ps).
Proof.
  induction ps as [|p ps IH]; intros h O G S NS.
  - exists h. split; [reflexivity|]. split; [exact G|]. cbn. lia.
  - inversion S as [|? ? S1 S2]; subst. cbn [map existsb] in NS. apply orb_false_iff in NS as [NS1 NS2]. cbn [flat_map] in G. rewrite <- app_assoc in G.
    destruct (destroy_ok _ _ _ G S1 NS1) as (h1 & E1 & G1 & C1 & L1). destruct (IH _ _ G1 S2 NS2) as (h2 & E2 & G2 & C2).
    exists h2. cbn [destroy_all]. rewrite E1. cbn [bind]. split; [exact E2|]. split; [exact G2|].
    cbn [map]. rewrite total_cons. change (filter is_logaccum (kind p :: map kind ps)) with (filter is_logaccum ([kind p] ++ map kind ps)). rewrite filter_app, app_length. lia.
Qed.

(** which parts the objects have *)
Definition obj_ok (o : option (list part)) (oc : option (list cls)) : Prop :=
  match o, oc with None, None => True | Some ps, Some cs => map kind ps = cs /\ Forall shaped ps | _, _ => False end.
Definition inv (s : state) (w : world) (lost : nat) : Prop :=
  Forall2 obj_ok (objs s) w /\ good (arrays s) (owned (objs s)) /\ held s = needed w + lost.
Lemma F2_nth {A B} (R : A -> B -> Prop) l l' : Forall2 R l l' -> forall i, match nth_error l i, nth_error l' i with Some x, Some y => R x y | None, None => True | _, _ => False end.
Proof. induction 1 as [|x y l l' H F IH]; intros [|i]; [exact Logic.I|exact Logic.I|exact H|exact (IH i)]. Qed.
Lemma F2_upd {A B} (R : A -> B -> Prop) l l' : Forall2 R l l' -> forall i x y, R x y -> Forall2 R (upd l i x) (upd l' i y).
Proof. induction 1; intros [|i] x0 y0 HR; cbn; constructor; auto. Qed.
Lemma owned_app l l' : owned (l ++ l') = owned l ++ owned l'.
Proof. apply flat_map_app. Qed.
Lemma owned_upd l : forall i ps o, nth_error l i = Some (Some ps) -> exists R, Permutation (owned l) (flat_map owned_part ps ++ R) /\ Permutation (owned (upd l i o)) (owned_obj o ++ R).
Proof.
  induction l as [|x l IH]; intros [|i] ps o E; cbn in E; try discriminate.
  - injection E as ->. exists (owned l). split; apply Permutation_refl.
  - destruct (IH i ps o E) as (R & P1 & P2). exists (owned_obj x ++ R). cbn [owned flat_map upd]. split; [rewrite (Permutation_app_head _ P1)|rewrite (Permutation_app_head _ P2)]; rewrite !app_assoc; apply Permutation_app_tail, Permutation_app_comm.
Qed.
Lemma parts_upd ps : forall j p p', nth_error ps j = Some p -> exists R, Permutation (flat_map owned_part ps) (owned_part p ++ R) /\ Permutation (flat_map owned_part (upd ps j p')) (owned_part p' ++ R).
Proof.
  induction ps as [|x l IH]; intros [|i] p p' E; cbn in E; try discriminate.
  - injection E as ->. exists (flat_map owned_part l). split; apply Permutation_refl.
  - destruct (IH i p p' E) as (R & P1 & P2). exists (owned_part x ++ R). cbn [flat_map upd]. split; [rewrite (Permutation_app_head _ P1)|rewrite (Permutation_app_head _ P2)]; rewrite !app_assoc; apply Permutation_app_tail, Permutation_app_comm.
Qed.
Lemma needed_cons o w : needed (o :: w) = match o with Some cs => total cs | None => 0 end + needed w.
Proof. reflexivity. Qed.
Lemma needed_app w w' : needed (w ++ w') = needed w + needed w'.
Proof. unfold needed. now rewrite map_app, list_sum_app. Qed.
Lemma needed_upd w : forall i cs, nth_error w i = Some (Some cs) -> needed w = needed (upd w i None) + total cs.
Proof. induction w as [|x w IH]; intros [|i] cs E; cbn in E; try discriminate; [injection E as ->|specialize (IH i cs E)]; cbn [upd]; rewrite !needed_cons; lia. Qed.
Lemma upd_same {A} (l : list A) : forall i x, nth_error l i = Some x -> upd l i x = l.
Proof. induction l as [|y l IH]; intros [|i] x E; cbn in *; try discriminate; [congruence|]. f_equal. now apply IH. Qed.
Lemma map_upd {A B} (f : A -> B) (l : list A) : forall i x, map f (upd l i x) = upd (map f l) i (f x).
Proof. induction l as [|y l IH]; intros [|i] x; cbn; auto. now rewrite IH. Qed.
Lemma Forall_upd {A} (P : A -> Prop) l : Forall P l -> forall i x, P x -> Forall P (upd l i x).
Proof. induction 1; intros [|i] x0 Hx; cbn; constructor; auto. Qed.

Lemma add_ok h p out h' p' R : good h (owned_part p ++ R) -> shaped p -> add h p out = (h', p') ->
  good h' (owned_part p' ++ R) /\ shaped p' /\ kind p' = kind p /\ cnt h' = cnt h + match kind p with CUniform true => if out then 1 else 0 | _ => 0 end.
Proof.
  intros G S E. unfold add in E.
  assert (T : (h', p') = (h, p) -> good h' (owned_part p' ++ R) /\ shaped p' /\ kind p' = kind p /\ cnt h' = cnt h + 0).
  { intros Q. injection Q as -> ->. repeat split; try apply G; auto. }
  destruct (kind p) as [|[|]| | | |] eqn:K; try (apply T; now symmetry). destruct out; [|apply T; now symmetry].
  unfold alloc in E. injection E as <- <-. destruct p as [k b v s q f]. cbn [kind] in K. subst k. unfold shaped in *. cbn [kind bins val_bins samples product firstsamples] in *. destruct S as (Sb & -> & -> & -> & ->).
  unfold owned_part in *. cbn [bins val_bins samples product firstsamples paddr app] in *. destruct b as [b|]; [|easy]. cbn [paddr app] in G. split; [apply good_alloc; now apply (good_drop _ b)|]. repeat split; try easy. rewrite cnt_app. reflexivity.
Qed.
Lemma step_ok s w lost o w' n : inv s w lost -> wstep w o = Ok (w', n) -> exists s', step s o = Ok (s', tt) /\ inv s' w' (lost + n).
Proof.
  intros (F & G & H) E. change (held s) with (cnt (arrays s)) in H. destruct o as [cs|i j out|i|i]; cbn [wstep step] in *.
  - injection E as <- <-. destruct (construct_all (arrays s) cs) as [h ps] eqn:E1. destruct (construct_all_ok _ _ _ _ _ G E1) as (G1 & S1 & K1 & C1). eexists. split; [reflexivity|]. split; [|split]; cbn [arrays objs].
    + apply Forall2_app; [exact F|]. constructor; [now split|constructor].
    + rewrite owned_app. eapply good_perm; [|exact G1]. replace (owned [Some ps]) with (flat_map owned_part ps) by (unfold owned; cbn [flat_map owned_obj]; now rewrite app_nil_r). apply Permutation_app_comm.
    + change (held _) with (cnt h). rewrite C1, H, needed_app. rewrite needed_cons. change (needed []) with 0. lia.
  - pose proof (F2_nth _ _ _ F i) as Hi. destruct (nth_error w i) as [[cs|]|] eqn:Ew; cbn [bind] in E; try discriminate. unfold get in E. destruct (nth_error cs j) as [c|] eqn:Ec; cbn [bind] in E; try discriminate. injection E as <- <-.
    unfold living. destruct (nth_error (objs s) i) as [[ps|]|] eqn:Eo; cbn [obj_ok] in Hi; try contradiction. destruct Hi as (Kps & Sps). cbn [bind]. unfold get.
    assert (Ep : exists p, nth_error ps j = Some p /\ kind p = c). { rewrite <- Kps, nth_error_map in Ec. destruct (nth_error ps j) as [p|]; [|discriminate]. injection Ec as <-. now exists p. }
    destruct Ep as (p & Ep & Kp). rewrite Ep. cbn [bind]. destruct (add (arrays s) p out) as [h p'] eqn:Ea.
    destruct (parts_upd ps j p p' Ep) as (R1 & P1 & P1'). destruct (owned_upd (objs s) i ps (Some (upd ps j p')) Eo) as (R2 & P2 & P2').
    assert (G0 : good (arrays s) (owned_part p ++ R1 ++ R2)). { eapply good_perm; [|exact G]. rewrite P2, P1, <- app_assoc. reflexivity. }
    assert (Sp : shaped p). { rewrite Forall_forall in Sps. apply Sps. now apply nth_error_In in Ep. }
    destruct (add_ok _ _ _ _ _ _ G0 Sp Ea) as (G1 & S1 & K1 & C1). eexists. split; [reflexivity|]. split; [|split]; cbn [arrays objs].
    + rewrite <- (upd_same w i (Some cs) Ew). apply F2_upd; [exact F|]. cbn. split; [|now apply Forall_upd]. rewrite map_upd, K1, Kp, Kps. now apply upd_same.
    + eapply good_perm; [|exact G1]. rewrite P2'. cbn [owned_obj]. rewrite P1', <- app_assoc. reflexivity.
    + change (held _) with (cnt h). rewrite C1, H, Kp. lia.
  - pose proof (F2_nth _ _ _ F i) as Hi. destruct (nth_error w i) as [[cs|]|] eqn:Ew; cbn [bind] in E; try discriminate. injection E as <- <-.
    unfold living. destruct (nth_error (objs s) i) as [[ps|]|] eqn:Eo; cbn [obj_ok] in Hi; try contradiction. cbn [bind]. exists s. split; [reflexivity|]. rewrite Nat.add_0_r. now split.
  - pose proof (F2_nth _ _ _ F i) as Hi. destruct (nth_error w i) as [[cs|]|] eqn:Ew; cbn [bind] in E; try discriminate. destruct (existsb is_series cs) eqn:NS; [discriminate|]. injection E as <- <-.
    unfold living. destruct (nth_error (objs s) i) as [[ps|]|] eqn:Eo; cbn [obj_ok] in Hi; try contradiction. destruct Hi as (Kps & Sps). cbn [bind].
    destruct (owned_upd (objs s) i ps None Eo) as (R & P & P'). cbn [owned_obj app] in P'. subst cs.
    destruct (destroy_all_ok ps (arrays s) R) as (h & E1 & G1 & C1); [now apply (good_perm _ _ _ P)|exact Sps|exact NS|].
    rewrite E1. cbn [bind]. eexists. split; [reflexivity|]. split; [|split]; cbn [arrays objs].
    + now apply F2_upd.
    + now apply (good_perm _ R _ (Permutation_sym P')).
    + change (held _) with (cnt h). pose proof (needed_upd w i _ Ew). lia.
Qed.
Lemma run_inv : forall l s w lost w' lost', inv s w lost -> after w lost l = Ok (w', lost') -> exists s', exec_ops step s l = Ok s' /\ inv s' w' lost'.
Proof.
  induction l as [|o l IH]; intros s w lost w' lost' HI E; cbn [after exec_ops] in *.
  - injection E as <- <-. now exists s.
  - destruct (wstep w o) as [[w1 n]| | |] eqn:E1; cbn [bind] in E; try discriminate. destruct (step_ok _ _ _ _ _ _ HI E1) as (s1 & -> & HI1). cbn [bind]. now apply (IH s1 w1 (lost + n)).
Qed.
Lemma inv0 : inv (mk_state [] []) [] 0.
Proof. split; [constructor|]. split; [|reflexivity]. split; constructor. Qed.

(** The full property: whatever objects a program constructs, uses and deletes, no array is
    deleted twice or in the wrong way, and the arrays that are held are those of the living
    objects. False: see the refutations. What holds is: without deleting a StatsSeries
    nothing is deleted twice or in the wrong way, and what is held beyond the arrays of the
    living objects is exactly one array for each value outside of the range of a growable
    histogram and one for each StatsHistogramLogAccum deleted. *)
Theorem C107_partial : forall (l : list op) w lost, after [] 0 l = Ok (w, lost) ->
  exists s, final l = Ok s /\ held s = needed w + lost.
Proof. intros l w lost E. destruct (run_inv l _ _ _ _ _ inv0 E) as (s & E1 & _ & _ & H). now exists s. Qed.
Print Assumptions C107_partial.
Example C107_ex : let l := [New [CUniform true]; New [CLog; CUniformAccum]; Add 0 0 true; Add 0 0 false; Add 0 0 true; New [CLogAccum]; Delete 1; Reset 0; Delete 2; New [CSeries]] in
  after [] 0 l = Ok ([Some [CUniform true]; None; None; Some [CSeries]], 3) /\ (let! s := final l in Ok (held s)) = Ok 7.
Proof. split; reflexivity. Qed.

(** What counts as deleted in a wrong way: an array that was deleted before, one that is not
    there, and delete without []. *)
Example C107_wrong_ex : delete_array [true; false] (Some 1) = UB /\ delete_array [true] (Some 1) = UB /\ delete_single [true] (Some 0) = UB.
Proof. repeat split; reflexivity. Qed.

Definition plain_world (w : world) : Prop := Forall (fun o => match o with Some cs => forallb plain cs = true | None => True end) w.
Lemma plain_step w o w' n : plain_world w -> plain_op o = true -> wstep w o = Ok (w', n) -> plain_world w' /\ n = 0.
Proof.
  intros P Po E. assert (At : forall i cs, nth_error w i = Some (Some cs) -> forallb plain cs = true).
  { intros i cs Ei. unfold plain_world in P. rewrite Forall_forall in P. apply (P (Some cs)). now apply nth_error_In in Ei. }
  destruct o as [cs|i j out|i|i]; cbn [wstep plain_op] in *.
  - injection E as <- <-. split; [|reflexivity]. apply Forall_app. split; [exact P|]. constructor; [exact Po|constructor].
  - destruct (nth_error w i) as [[cs|]|] eqn:Ew; cbn [bind] in E; try discriminate. unfold get in E. destruct (nth_error cs j) as [c|] eqn:Ec; cbn [bind] in E; try discriminate. injection E as <- <-. split; [exact P|].
    specialize (At _ _ Ew). rewrite forallb_forall in At. apply nth_error_In in Ec. specialize (At c Ec). destruct c as [|[|]| | | |]; try discriminate; reflexivity.
  - destruct (nth_error w i) as [[cs|]|] eqn:Ew; cbn [bind] in E; try discriminate. injection E as <- <-. now split.
  - destruct (nth_error w i) as [[cs|]|] eqn:Ew; cbn [bind] in E; try discriminate. destruct (existsb is_series cs); [discriminate|]. injection E as <- <-. split; [apply Forall_upd; [exact P|exact Logic.I]|].
    specialize (At _ _ Ew). clear -At. induction cs as [|c cs IH]; [reflexivity|]. cbn in *. apply andb_prop in At as [A1 A2]. destruct c as [|[|]| | | |]; try discriminate; now apply IH.
Qed.
Lemma plain_after : forall l w w' lost lost', plain_world w -> forallb plain_op l = true -> after w lost l = Ok (w', lost') -> lost' = lost.
Proof.
  induction l as [|o l IH]; intros w w' lost lost' P Pl E; cbn [after forallb] in *; [congruence|]. apply andb_prop in Pl as [P1 P2]. destruct (wstep w o) as [[w1 n]| | |] eqn:E1; cbn [bind] in E; try discriminate.
  destruct (plain_step _ _ _ _ P P1 E1) as (Pw & ->). rewrite Nat.add_0_r in E. now apply (IH w1 w').
Qed.
(** With the other classes, when a program has deleted all its objects, every array was given
    back, once. *)
Theorem C107_given_back : forall (l : list op) w lost, forallb plain_op l = true -> after [] 0 l = Ok (w, lost) -> (forall i, nth_error w i = Some None \/ nth_error w i = None) ->
  exists s, final l = Ok s /\ held s = 0.
Proof.
  intros l w lost Pl E D. assert (lost = 0) as -> by (apply (plain_after l [] w 0 lost); [constructor|exact Pl|exact E]).
  destruct (C107_partial l w 0 E) as (s & E1 & H). exists s. split; [exact E1|]. rewrite H, Nat.add_0_r. clear -D. induction w as [|o w IH]; [reflexivity|].
  destruct (D 0) as [Q|Q]; cbn in Q; [injection Q as ->|discriminate]. unfold needed in *. cbn. apply IH. intros i. exact (D (S i)).
Qed.
Print Assumptions C107_given_back.
Example C107_given_back_ex : let l := [New [CUniform false]; New [CLog; CUniformAccum]; Add 0 0 true; Delete 1; Reset 0; Delete 0] in
  forallb plain_op l = true /\ after [] 0 l = Ok ([None; None], 0) /\ (let! s := final l in Ok (held s)) = Ok 0.
Proof. repeat split; reflexivity. Qed.

(** Deleting a StatsSeries is undefined behaviour, whatever happened before. *)
Lemma kind_series ps : existsb is_series (map kind ps) = true -> exists p, In p ps /\ kind p = CSeries.
Proof. intros E. apply existsb_exists in E as (c & Hc & Sc). apply in_map_iff in Hc as (p & <- & Hp). exists p. split; [exact Hp|]. now destruct (kind p). Qed.
Lemma destroy_all_series : forall ps h O, good h (flat_map owned_part ps ++ O) -> Forall shaped ps -> existsb is_series (map kind ps) = true -> destroy_all h ps = UB.
Proof.
  induction ps as [|p ps IH]; intros h O G S NS; [discriminate|]. inversion S as [|? ? S1 S2]; subst. cbn [flat_map] in G. rewrite <- app_assoc in G. cbn [destroy_all].
  destruct (is_series (kind p)) eqn:Kp.
  - unfold destroy, shaped in *. destruct (kind p); try discriminate. destruct S1 as (_ & _ & Ss & _). destruct (samples p); [reflexivity|easy].
  - cbn [map existsb] in NS. rewrite Kp in NS. cbn [orb] in NS. destruct (destroy_ok _ _ _ G S1 Kp) as (h1 & -> & G1 & _). cbn [bind]. now apply (IH h1 O).
Qed.
Theorem C107_series_refuted : forall (l : list op) w lost i cs, after [] 0 l = Ok (w, lost) -> nth_error w i = Some (Some cs) -> In CSeries cs ->
  final (l ++ [Delete i]) = UB.
Proof.
  intros l w lost i cs E Ei Hin. destruct (run_inv l _ _ _ _ _ inv0 E) as (s & E1 & F & G & _). unfold final.
  assert (X : forall l1 s0 l2, exec_ops step s0 (l1 ++ l2) = let! s := exec_ops step s0 l1 in exec_ops step s l2).
  { induction l1 as [|o l1 IH]; intros s0 l2; cbn [app exec_ops bind]; [reflexivity|]. destruct (step s0 o) as [[s1 u]| | |]; cbn [bind]; auto. }
  rewrite X, E1. cbn [bind exec_ops step]. pose proof (F2_nth _ _ _ F i) as Hi. rewrite Ei in Hi. unfold living. destruct (nth_error (objs s) i) as [[ps|]|] eqn:Eo; cbn [obj_ok] in Hi; try contradiction. destruct Hi as (Kps & Sps). cbn [bind].
  destruct (owned_upd (objs s) i ps None Eo) as (R & P & _). rewrite (destroy_all_series ps (arrays s) R); [reflexivity|now apply (good_perm _ _ _ P)|exact Sps|]. rewrite Kps. apply existsb_exists. now exists CSeries.
Qed.
Print Assumptions C107_series_refuted.
Example C107_series_refuted_ex : final [New [CSeries]; Delete 0] = UB.
Proof. reflexivity. Qed.

(** [n] values that a growable histogram grows for, or [n] objects of class
    StatsHistogramLogAccum, leave [n] arrays behind after everything is deleted. *)
Lemma after_adds n : forall lost l, after [Some [CUniform true]] lost (repeat (Add 0 0 true) n ++ l) = after [Some [CUniform true]] (lost + n) l.
Proof. induction n as [|n IH]; intros lost l; [cbn; now rewrite Nat.add_0_r|]. cbn [repeat app after wstep nth_error bind get]. rewrite IH. f_equal. lia. Qed.
Theorem C107_growth_refuted : forall n, exists s, final (New [CUniform true] :: repeat (Add 0 0 true) n ++ [Delete 0]) = Ok s /\ objs s = [None] /\ held s = n.
Proof.
  intros n. assert (E : after [] 0 (New [CUniform true] :: repeat (Add 0 0 true) n ++ [Delete 0]) = Ok ([None], n)).
  { cbn [after wstep bind app]. rewrite after_adds. cbn. f_equal. f_equal. lia. }
  destruct (run_inv _ _ _ _ _ _ inv0 E) as (s & E1 & F & _ & H). exists s. split; [exact E1|]. split; [|exact H]. inversion F as [|o x lo lx Ho Fo]; subst. inversion Fo; subst. destruct o; [contradiction|reflexivity].
Qed.
Print Assumptions C107_growth_refuted.
Theorem C107_logaccum_refuted : forall n, exists s, final [New (repeat CLogAccum n); Delete 0] = Ok s /\ objs s = [None] /\ held s = n.
Proof.
  intros n. assert (E : after [] 0 [New (repeat CLogAccum n); Delete 0] = Ok ([None], n)).
  { cbn [after wstep bind app nth_error]. assert (X : existsb is_series (repeat CLogAccum n) = false) by (induction n; cbn; auto). rewrite X. cbn [bind]. f_equal. f_equal. clear X. induction n as [|n IH]; [reflexivity|]. cbn in *. lia. }
  destruct (run_inv _ _ _ _ _ _ inv0 E) as (s & E1 & F & _ & H). exists s. split; [exact E1|]. split; [|exact H]. inversion F as [|o x lo lx Ho Fo]; subst. inversion Fo; subst. destruct o; [contradiction|reflexivity].
Qed.
Print Assumptions C107_logaccum_refuted.
