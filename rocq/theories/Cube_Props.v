(** C38 and C39: StatsCube and HashTupleStats. *)
From Coq Require Import List Arith NArith ZArith QArith Lia Bool Permutation ZifyBool ZifyNat ZifyN.
From Verif Require Import Common Arith Stats_Spec Stats_Model Stats_Proofs HashFns_Model Tuples_Spec Tuples_Model HashMap_Proofs Cube_Spec Cube_Model Cube_Entries Cube_Proofs.
Import ListNotations.
Local Open Scope nat_scope.

(** C38. Every client program on a fresh StatsCube behaves as its specification: the
    base data is a map from tuples, the cube a map from patterns, and each operation
    answers and changes them as [cstep] says. The number of entries made must stay
    below the limit of the hash table. *)
Theorem C38_cube_history : forall (A S X : Type) (eqb : A -> A -> bool) (hash : A -> Z) (adef : A) (fresh : S) (add : S -> X -> S) (zero : X)
    (cube_add : S -> S -> S) (opt : bool -> list (option A) -> bool) (n : nat) (prog : list (cop A S X)),
  (forall a b, eqb a b = true <-> a = b) -> Forall (typed n) prog -> (cost n 0 prog < 283301878)%N ->
  exists b c outs st s', c_new = Ok (b, c) /\
    c_run eqb hash adef fresh add zero cube_add opt n (b, c) prog = Ok (outs, st) /\
    chist eqb fresh add zero cube_add opt n (fun _ => None, fun _ => None) prog outs s'.
Proof.
  intros A S X eqb hash adef fresh add zero cube_add opt n prog E T C. destruct (new_rel (A := A) (S := S) eqb hash n) as (b & c & En & RB & RC).
  destruct (run_rel eqb hash adef fresh add zero cube_add opt n E prog b c _ _ 0 0 0%N RB RC) as (outs & st & s' & Er & H); [lia|lia|lia|exact T|].
  exists b, c, outs, st, s'. auto.
Qed.
Print Assumptions C38_cube_history.

(** The values added under a key, in order. *)
Definition values {A X} (eqb : A -> A -> bool) (k : list A) (l : list (list A * X)) : list X :=
  map snd (filter (fun e => fits eqb (map Some k) (fst e)) l).

Lemma cost_adds {A S X} (n : nat) : forall (l : list (list A * X)) m r, cost n m (map (fun e => CAdd (S := S) (fst e) (snd e)) l ++ r) = (N.of_nat (length l) + cost n (m + N.of_nat (length l)) r)%N.
Proof.
  induction l as [|[k x] l IH]; intros m r; cbn [map app length]; [replace (m + N.of_nat 0)%N with m by lia; lia|]. cbn [cost]. rewrite IH. replace (m + 1 + N.of_nat (length l))%N with (m + N.of_nat (Datatypes.S (length l)))%N by lia. lia.
Qed.
Section adds.
Context {A S X : Type}.
Variable eqb : A -> A -> bool.
Variable fresh : S.
Variable add : S -> X -> S.
Variable zero : X.
Variable cube_add : S -> S -> S.
Variable opt : bool -> list (option A) -> bool.
Variable n : nat.
Hypothesis eqb_eq : forall a b, eqb a b = true <-> a = b.

Lemma fits_some k : forall k', fits eqb (map Some k) k' = true <-> k = k'.
Proof.
  induction k as [|x k IH]; intros [|y k']; cbn [map fits]; try (split; discriminate); [split; reflexivity|]. rewrite andb_true_iff, eqb_eq, IH. split; [intros [-> ->]; reflexivity|intros E; injection E; auto].
Qed.
Definition base_of (l : list (list A * X)) (k : list A) : option S := match values eqb k l with [] => None | xs => Some (fold_left add xs fresh) end.
Lemma values_snoc k (l : list (list A * X)) k' x : values eqb k (l ++ [(k', x)]) = values eqb k l ++ if fits eqb (map Some k) k' then [x] else [].
Proof. unfold values. rewrite filter_app, map_app. cbn [filter fst]. destruct (fits eqb (map Some k) k'); reflexivity. Qed.
Lemma adds_state : forall l done b c (r : list (cop A S X)) outs s', (forall k, b k = base_of done k) ->
  chist eqb fresh add zero cube_add opt n (b, c) (map (fun e => CAdd (fst e) (snd e)) l ++ r) outs s' ->
  exists b' outs', outs = repeat CNone (length l) ++ outs' /\ (forall k, b' k = base_of (done ++ l) k) /\ chist eqb fresh add zero cube_add opt n (b', c) r outs' s'.
Proof.
  induction l as [|[k x] l IH]; intros done b c r outs s' Hb H; cbn [map app length repeat] in *.
  - exists b, outs. rewrite app_nil_r. auto.
  - inversion H as [|s o out s1 r0 outs0 s2 St H']. subst. inversion St as [b0 c0 k0 x0 b' E1 E2| | | | | | | | | | | | |]. subst.
    destruct (IH (done ++ [(k, x)]) b' c r outs0 s') as (b2 & outs2 & -> & Hb2 & H2); [|exact H'|].
    + intros k'. unfold base_of. rewrite values_snoc. destruct (fits eqb (map Some k') k) eqn:F.
      * apply fits_some in F. subst k'. cbn [fst snd] in *. rewrite E1, Hb. unfold base_of. destruct (values eqb k done) as [|y ys]; [reflexivity|]. cbn [app val]. f_equal. change (y :: ys ++ [x]) with ((y :: ys) ++ [x]). rewrite fold_left_app. reflexivity.
      * cbn [fst snd] in *. rewrite app_nil_r, E2; [apply Hb|]. intros ->. assert (fits eqb (map Some k) k = true) by now apply fits_some. congruence.
    + exists b2, outs2. split; [reflexivity|]. split; [|exact H2]. intros k'. rewrite Hb2, <- app_assoc. reflexivity.
Qed.
Lemma values_in k (l : list (list A * X)) x : In x (values eqb k l) <-> In (k, x) l.
Proof.
  unfold values. rewrite in_map_iff. split.
  - intros ((k' & x') & E & I). apply filter_In in I. destruct I as (I & Q). cbn [fst snd] in *. apply fits_some in Q. subst. exact I.
  - intros I. exists (k, x). split; [reflexivity|]. apply filter_In. split; [exact I|]. now apply fits_some.
Qed.
Lemma values_nonempty k (l : list (list A * X)) : values eqb k l <> [] <-> exists x, In (k, x) l.
Proof.
  split.
  - intros H. destruct (values eqb k l) as [|x xs] eqn:E; [now destruct H|]. exists x. apply values_in. rewrite E. now left.
  - intros (x & I) E. apply values_in in I. rewrite E in I. destruct I.
Qed.
Lemma base_some k l s : base_of l k = Some s <-> values eqb k l <> [] /\ s = fold_left add (values eqb k l) fresh.
Proof. unfold base_of. destruct (values eqb k l) as [|x xs]; [split; [discriminate|intros [H _]; now destruct H]|]. split; [intros E; injection E; intros <-; split; [discriminate|reflexivity]|intros [_ ->]; reflexivity]. Qed.
End adds.

(** C39. walkZeros calls the walk function once for each combination of values seen
    at their positions, with the statistics of the values added under that key, or
    the empty statistics (with one 0 when asked to count zeros) where there are none. *)
Theorem C39_every_combination_once : forall (A S X : Type) (eqb : A -> A -> bool) (hash : A -> Z) (adef : A) (fresh : S) (add : S -> X -> S) (zero : X)
    (cube_add : S -> S -> S) (opt : bool -> list (option A) -> bool) (n : nat) (data : list (list A * X)) (count_zeros : bool),
  (forall a b, eqb a b = true <-> a = b) -> (forall e, In e data -> length (fst e) = n) -> (N.of_nat (length data) < 283301878)%N ->
  exists b c l st, c_new = Ok (b, c) /\
    c_run eqb hash adef fresh add zero cube_add opt n (b, c) (map (fun e => CAdd (fst e) (snd e)) data ++ [CWalkZeros count_zeros]) = Ok (repeat CNone (length data) ++ [CRows l], st) /\
    NoDup (map fst l) /\
    forall k v, In (k, v) l <->
      length k = n /\
      (forall i a, nth_error k i = Some a -> exists k' x, In (k', x) data /\ nth_error k' i = Some a) /\
      v = match values eqb k data with
          | [] => if count_zeros then add fresh zero else fresh
          | xs => fold_left add xs fresh
          end.
Proof.
  intros A S X eqb hash adef fresh add zero cube_add opt n data z E L C.
  destruct (C38_cube_history A S X eqb hash adef fresh add zero cube_add opt n (map (fun e => CAdd (fst e) (snd e)) data ++ [CWalkZeros z]) E) as (b & c & outs & st & s' & En & Er & H).
  - apply Forall_app. split; [|constructor; [exact I|constructor]]. apply Forall_forall. intros o Ho. apply in_map_iff in Ho. destruct Ho as (e & <- & He). exact (L e He).
  - rewrite cost_adds. cbn [cost]. lia.
  - destruct (adds_state eqb fresh add zero cube_add opt n E data [] (fun _ => None) (fun _ => None) [CWalkZeros z] outs s') as (b' & outs' & -> & Hb & H'); [reflexivity|exact H|]. cbn [app] in Hb.
    inversion H' as [|s o out s1 r0 outs0 s2 St H2]. subst. inversion H2. subst. inversion St as [ | | | | | | | | | | | b0 c0 z0 l (ND & LZ) E1 E2 E3| |]. subst.
    exists b, c, l, st. split; [exact En|]. split; [exact Er|]. split; [exact ND|]. intros k v. rewrite LZ.
    assert (KEY : forall k', (exists s, b' k' = Some s) <-> exists x, In (k', x) data).
    { intros k'. rewrite <- (values_nonempty eqb E). setoid_rewrite Hb. setoid_rewrite base_some. split; [intros (s & Hs & _); exact Hs|intros Hs; eexists; split; [exact Hs|reflexivity]]. }
    assert (V : match b' k with Some s => s | None => empty_of fresh add zero z end = match values eqb k data with [] => if z then add fresh zero else fresh | xs => fold_left add xs fresh end).
    { rewrite Hb. unfold base_of, empty_of. destruct (values eqb k data); reflexivity. }
    rewrite V. split; intros (Lk & Hk & Hv); (split; [exact Lk|]); (split; [|exact Hv]); intros i a Ha; destruct (Hk i a Ha) as (k' & s & Hs & Hi).
    + destruct (proj1 (KEY k')) as (x & Hx); [eauto|]. eauto.
    + destruct (proj2 (KEY k')) as (x & Hx); [eauto|]. eauto.
Qed.
Print Assumptions C39_every_combination_once.

(** The samples whose key fits a pattern. *)
Definition fitting {A X} (eqb : A -> A -> bool) (p : list (option A)) (l : list (list A * X)) : list X :=
  map snd (filter (fun e => fits eqb p (fst e)) l).

Lemma filter_le {B} (f : B -> bool) l : length (filter f l) <= length l.
Proof. induction l as [|x l IH]; cbn [filter length]; [lia|]. destruct (f x); cbn [length]; lia. Qed.
Lemma Rep_perm s l l' : Permutation l l' -> Rep s l -> Rep s l'.
Proof.
  intros P (H1 & (a & A1 & A2) & (b & B1 & B2) & H4 & H5). unfold Rep. rewrite <- (Permutation_length P). split; [exact H1|]. split; [|split; [|split]].
  - exists a. split; [exact A1|]. rewrite A2. now apply qsum_perm.
  - exists b. split; [exact B1|]. rewrite B2. unfold qsumsq. apply qsum_perm. now apply Permutation_map.
  - destruct H4 as [(-> & ->)|(q & -> & I & L)]; [left; split; [now apply Permutation_nil|reflexivity]|right; exists q; split; [reflexivity|]; split; [eapply Permutation_in; eauto|]; intros x Hx; apply L; eapply Permutation_in; [apply Permutation_sym; exact P|exact Hx]].
  - destruct H5 as [(-> & ->)|(q & -> & I & L)]; [left; split; [now apply Permutation_nil|reflexivity]|right; exists q; split; [reflexivity|]; split; [eapply Permutation_in; eauto|]; intros x Hx; apply L; eapply Permutation_in; [apply Permutation_sym; exact P|exact Hx]].
Qed.
Section exact_cube.
Context {A : Type}.
Variable eqb : A -> A -> bool.
Variable opt : bool -> list (option A) -> bool.
Hypothesis eqb_eq : forall a b, eqb a b = true <-> a = b.
Notation xadd := (fun s x => st_add exact s (Fin x)).
Lemma Rep_fold xs : forall s l, Rep s l -> Rep (fold_left xadd xs s) (l ++ xs).
Proof. induction xs as [|x xs IH]; intros s l R; cbn [fold_left]; [now rewrite app_nil_r|]. change (x :: xs) with ([x] ++ xs). rewrite app_assoc. apply IH. now apply Rep_add. Qed.
(** The rows of a listing whose keys fit hold together the fitting samples. *)
Lemma rows_perm p : forall (ks : list (list A)) (data : list (list A * Q)), NoDup ks ->
  Permutation (flat_map (fun k => if fits eqb p k then values eqb k data else []) ks) (fitting eqb p (filter (fun e => existsb (fun k => fits eqb (map Some k) (fst e)) ks) data)).
Proof.
  intros ks data ND. induction data as [|[k x] data IH]; cbn [filter fst].
  - unfold fitting, values. cbn [filter map]. induction ks as [|k ks IHk]; [constructor|]. cbn [flat_map]. inversion ND. destruct (fits eqb p k); cbn [app]; auto.
  - assert (STEP : Permutation (flat_map (fun k' => if fits eqb p k' then values eqb k' ((k, x) :: data) else []) ks)
      ((if existsb (fun k' => fits eqb (map Some k') k) ks && fits eqb p k then [x] else []) ++ flat_map (fun k' => if fits eqb p k' then values eqb k' data else []) ks)).
    { clear IH. induction ks as [|k' ks IHk]; [constructor|]. inversion ND as [|? ? Nk ND']. subst. cbn [flat_map existsb]. specialize (IHk ND'). unfold values at 1. cbn [filter fst]. destruct (fits eqb (map Some k') k) eqn:F.
      - apply (fits_some eqb eqb_eq) in F. subst k'. assert (Ex : existsb (fun k' => fits eqb (map Some k') k) ks = false).
        { destruct (existsb _ ks) eqn:Q; [|reflexivity]. exfalso. apply existsb_exists in Q. destruct Q as (k2 & I2 & Q2). apply (fits_some eqb eqb_eq) in Q2. subst k2. contradiction. }
        rewrite Ex in IHk. cbn [andb app] in IHk. cbn [orb andb]. destruct (fits eqb p k); cbn [map snd app]; rewrite IHk; reflexivity.
      - cbn [orb]. fold (values eqb k' data). destruct (fits eqb p k'); [|cbn [app]; exact IHk]. rewrite IHk. rewrite !app_assoc. apply Permutation_app_tail. apply Permutation_app_comm. }
    rewrite STEP, IH. destruct (existsb _ ks); [|reflexivity]. cbn [andb]. unfold fitting. cbn [filter fst]. destruct (fits eqb p k); reflexivity.
Qed.
Lemma gather_rep p data : wanted opt p = true -> forall (o : list (list A * stats exact)) e l, (forall k s, In (k, s) o -> Rep s (values eqb k data)) ->
  match e with Some s => Rep s l | None => l = [] end ->
  match gather eqb (st_new exact) (st_merge exact) opt p o e with
  | Some s => Rep s (l ++ flat_map (fun k => if fits eqb p k then values eqb k data else []) (map fst o))
  | None => e = None /\ forall k s, In (k, s) o -> fits eqb p k = false
  end.
Proof.
  intros W. induction o as [|[k v] o IH]; intros e l HR He; cbn [gather map fst flat_map].
  - destruct e; [now rewrite app_nil_r|]. split; [reflexivity|]. intros k s [].
  - rewrite W, andb_true_r. destruct (fits eqb p k) eqn:F.
    + assert (R1 : Rep (st_merge exact (match e with Some s => s | None => st_new exact end) v) (l ++ values eqb k data)).
      { apply Rep_merge; [|apply HR; now left]. destruct e; [exact He|subst l; apply Rep_new]. }
      specialize (IH (Some (st_merge exact (match e with Some s => s | None => st_new exact end) v)) (l ++ values eqb k data) (fun k' s' I => HR k' s' (or_intror I)) R1).
      destruct (gather _ _ _ _ _ _ _); [now rewrite app_assoc|]. destruct IH as (Q & _). discriminate.
    + specialize (IH e l (fun k' s' I => HR k' s' (or_intror I)) He). cbn [app]. destruct (gather _ _ _ _ _ _ _); [exact IH|]. destruct IH as (Q & N). split; [exact Q|]. intros k' s' [I|I]; [congruence|eauto].
Qed.
Lemma gather_unwanted p o e : wanted opt p = false -> gather eqb (st_new exact) (st_merge exact) opt p o e = e.
Proof. intros W. revert e. induction o as [|[k v] o IH]; intros e; cbn [gather]; [reflexivity|]. rewrite W, andb_false_r. apply IH. Qed.
End exact_cube.

(** C38 for Stats over exact arithmetic: adding samples, then cube() and walk() visits
    one entry for each wanted pattern that some sample's key fits, and that entry has the
    count, sum, minimum, maximum, mean and variance of all the samples whose key fits. *)
Theorem C38_cube_of_samples : forall (A : Type) (eqb : A -> A -> bool) (hash : A -> Z) (adef : A) (opt : bool -> list (option A) -> bool) (n : nat) (data : list (list A * Q)),
  (forall a b, eqb a b = true <-> a = b) -> (forall e, In e data -> length (fst e) = n) ->
  (N.of_nat (length data) * (1 + 2 ^ N.of_nat n) < 283301878)%N ->
  exists b c l st, c_new = Ok (b, c) /\
    c_run eqb hash adef (st_new exact) (fun s x => st_add exact s (Fin x)) 0%Q (st_merge exact) opt n (b, c)
      (map (fun e => CAdd (fst e) (snd e)) data ++ [CCube; CWalk]) = Ok (repeat CNone (length data) ++ [CNone; CEntries l], st) /\
    NoDup (map fst l) /\
    (forall p, In p (map fst l) <-> opt (has_any p) p = true /\ exists k x, In (k, x) data /\ fits eqb p k = true) /\
    forall p s, In (p, s) l -> let xs := fitting eqb p data in
      st_count exact s = Z.of_nat (length xs) /\ fin_eq (st_total exact s) (qsum xs) /\ is_min (min_value s) xs /\ is_max (max_value s) xs /\
      fin_eq (st_mean exact s) (qmean xs) /\ fin_eq (st_variance exact s) (qvar xs).
Proof.
  intros A eqb hash adef opt n data E L C. set (xadd := fun s x => st_add exact s (Fin x)).
  destruct (C38_cube_history A _ _ eqb hash adef (st_new exact) xadd 0%Q (st_merge exact) opt n (map (fun e => CAdd (fst e) (snd e)) data ++ [CCube; CWalk]) E) as (b & c & outs & st & s' & En & Er & H).
  - apply Forall_app. split; [|repeat constructor]. apply Forall_forall. intros o Ho. apply in_map_iff in Ho. destruct Ho as (e & <- & He). exact (L e He).
  - rewrite cost_adds. cbn [cost]. lia.
  - destruct (adds_state eqb (st_new exact) xadd 0%Q (st_merge exact) opt n E data [] (fun _ => None) (fun _ => None) [CCube; CWalk] outs s') as (b' & outs' & -> & Hb & H'); [reflexivity|exact H|]. cbn [app] in Hb.
    inversion H' as [|s o out s1 r0 outs0 s2 St H2]. subst. inversion St as [ | |b0 c0 rows c' (NDr & LR) HG E1 E2 E3| | | | | | | | | | |]. subst. inversion H2 as [|s o out s1 r0 outs1 s2 St2 H3]. subst. inversion H3. subst. inversion St2 as [ | | | | |b1 c1 l (ND & LI) F1 F2 F3| | | | | | | |]. subst.
    exists b, c, l, st. split; [exact En|]. split; [exact Er|]. split; [exact ND|].
    assert (RR : forall k s, In (k, s) rows -> Rep s (values eqb k data)).
    { intros k s I. apply LR in I. rewrite Hb in I. apply base_some in I. destruct I as (_ & ->). apply (Rep_fold (values eqb k data) (st_new exact) [] Rep_new). }
    assert (KEY : forall k, (exists s, In (k, s) rows) <-> exists x, In (k, x) data).
    { intros k. rewrite <- (values_nonempty eqb E k data). split; [intros (s & I); apply LR in I; rewrite Hb in I; now apply base_some in I|]. intros V. eexists. apply LR. rewrite Hb. apply base_some. split; [exact V|reflexivity]. }
    assert (ALL : filter (fun e : list A * Q => existsb (fun k => fits eqb (map Some k) (fst e)) (@map (list A * stats exact) (list A) fst rows)) data = data).
    { apply HashMap_Proofs.filter_id. intros (k & x) I. apply existsb_exists. exists k. split; [|cbn [fst]; now apply fits_some]. destruct (proj2 (KEY k) (ex_intro _ x I)) as (s & J). apply in_map_iff. exists (k, s). auto. }
    assert (GR : forall p, if wanted opt p then match c' p with Some s => Rep s (fitting eqb p data) | None => forall k x, In (k, x) data -> fits eqb p k = false end else c' p = None).
    { intros p. rewrite HG. destruct (wanted opt p) eqn:W; [|now apply gather_unwanted]. assert (X := gather_rep eqb opt p data W rows None [] RR eq_refl). destruct (gather _ _ _ _ _ _ _).
      - eapply Rep_perm; [|exact X]. cbn [app]. assert (RP := rows_perm eqb E p (map fst rows) data NDr). unfold tuple in *. rewrite ALL in RP. exact RP.
      - destruct X as (_ & N). intros k x I. destruct (proj2 (KEY k) (ex_intro _ x I)) as (s & J). eauto. }
    assert (FNE : forall p, fitting eqb p data <> [] <-> exists k x, In (k, x) data /\ fits eqb p k = true).
    { intros p. unfold fitting. split.
      - intros X. destruct (map snd _) as [|y ys] eqn:Q; [now destruct X|]. assert (I : In y (map snd (filter (fun e => fits eqb p (fst e)) data))) by (rewrite Q; now left). apply in_map_iff in I. destruct I as ((k & x) & _ & I). apply filter_In in I. exists k, x. exact I.
      - intros (k & x & I & F) Q. assert (J : In x (map snd (filter (fun e => fits eqb p (fst e)) data))) by (apply in_map_iff; exists (k, x); split; [reflexivity|]; apply filter_In; auto). rewrite Q in J. destruct J. }
    assert (NE : forall p s, c' p = Some s -> wanted opt p = true /\ exists k x, In (k, x) data /\ fits eqb p k = true).
    { intros p s Q. specialize (GR p). destruct (wanted opt p) eqn:W; [|congruence]. split; [reflexivity|]. rewrite HG in Q. apply FNE. intros Z.
      assert (NF : forall k v, In (k, v) rows -> fits eqb p k = false).
      { intros k v I. destruct (fits eqb p k) eqn:F; [|reflexivity]. exfalso. destruct (proj1 (KEY k)) as (x & J); [eauto|]. apply (proj2 (FNE p)); [eauto|exact Z]. }
      assert (G0 : forall o e, (forall k v, In (k, v) o -> fits eqb p k = false) -> gather eqb (st_new exact) (st_merge exact) opt p o e = e).
      { induction o as [|[k v] o IH]; intros e HN; cbn [gather]; [reflexivity|]. rewrite (HN k v) by (now left). cbn [andb]. apply IH. intros k' v' I. apply (HN k' v'). now right. }
      rewrite G0 in Q by exact NF. discriminate. }
    split.
    + intros p. fold (wanted opt p). split.
      * intros I. apply in_map_iff in I. destruct I as ((p1 & s) & <- & I). apply LI in I. eapply NE; eauto.
      * intros (W & k & x & I & F). specialize (GR p). rewrite W in GR. destruct (c' p) as [s|] eqn:Q; [|rewrite (GR k x I) in F; discriminate]. apply in_map_iff. exists (p, s). split; [reflexivity|]. now apply LI.
    + intros p s I xs. apply LI in I. destruct (NE p s I) as (W & X). specialize (GR p). rewrite W, I in GR. apply FNE in X. fold xs in GR, X.
      assert (SM : (Z.of_nat (length xs) < 2 ^ 64)%Z).
      { assert (length xs <= length data) by (unfold xs, fitting; rewrite map_length; apply filter_le). assert (N.of_nat (length data) < 283301878)%N by (assert (0 < 2 ^ N.of_nat n)%N by (apply N.neq_0_lt_0, N.pow_nonzero; discriminate); nia). change (2 ^ 64)%Z with 18446744073709551616%Z. lia. }
      split; [exact (Rep_number _ _ GR SM)|]. split; [apply GR|]. split; [apply GR|]. split; [apply GR|]. split; [now apply Rep_mean|now apply Rep_variance].
Qed.
Print Assumptions C38_cube_of_samples.

(** A cube over pairs of numbers, with lists of samples for statistics; patterns that
    are all any are not wanted. Keys hash alike, so that chains are long. *)
Definition ex_run := match c_new with
  | Ok st => c_run Nat.eqb (fun x => Z.of_nat (x mod 2)) 0 [] (fun s (x : nat) => s ++ [x]) 0 (fun a b => a ++ b)
       (fun h p => negb (h && forallb (fun x => match x with None => true | _ => false end) p)) 2 st
       [CAdd [1; 5] 10; CAdd [1; 6] 11; CAdd [2; 5] 12; CAdd [1; 5] 13; CCube; CSize; CGet [Some 1; None]; CGet [None; Some 6];
        CWalkZeros true; CPrune (fun p => match p with [Some 1; _] => true | _ => false end); CSize; CWalk; CClear true; CSize; CBaseSize]
  | _ => Fuel
  end.
Example C38_run : match ex_run with Ok (outs, _) => outs | _ => [] end =
  [CNone; CNone; CNone; CNone; CNone; CNum 7; CStat [11; 10; 13]; CStat [11];
   CRows [([2; 6], [0]); ([2; 5], [12]); ([1; 6], [11]); ([1; 5], [10; 13])]; CNone; CNum 4;
   CEntries [([None; Some 6], [11]); ([Some 2; Some 5], [12]); ([Some 2; None], [12]); ([None; Some 5], [12; 10; 13])]; CNone; CNum 0; CNum 0].
Proof. vm_compute. reflexivity. Qed.
Example C38_samples : match (let! st := c_new in c_run Nat.eqb Z.of_nat 0 (st_new exact) (fun s x => st_add exact s (Fin x)) 0%Q (st_merge exact) (fun _ _ => true) 2 st
    [CAdd [1; 5] (1#2)%Q; CAdd [1; 6] 3%Q; CAdd [2; 5] (-4 # 1)%Q; CCube; CSize; CGet [Some 1; None]; CGet [None; None]]) with
  | Ok ([_; _; _; _; CNum 8; CStat s; CStat t], _) => st_count exact s = 2%Z /\ st_total exact s = Fin (7#2)%Q /\ st_count exact t = 3%Z /\ min_value t = Fin (-4#1)%Q
  | _ => False
  end.
Proof. vm_compute. repeat split. Qed.
