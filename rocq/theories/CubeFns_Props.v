(** C113: StatsCube with the functions that come with it. *)
From Coq Require Import List Arith NArith ZArith QArith Lia Bool Permutation ZifyBool ZifyNat ZifyN.
From Verif Require Import Common Arith Stats_Spec Stats_Model Stats_Proofs HashFns_Model Tuples_Spec Tuples_Model HashMap_Proofs Cube_Spec Cube_Model Cube_Entries Cube_Proofs Cube_Props CubeFns_Model.
Import ListNotations.
Local Open Scope nat_scope.

(** Adding the samples [data], then cube() and walk(): the entries walked are [l]. *)
Definition cube_of {A} (eqb : A -> A -> bool) (hash : A -> Z) (adef : A) (cube_add : stats exact -> stats exact -> stats exact) (opt : bool -> list (option A) -> bool) (n : nat) (data : list (list A * Q)) (l : list (list (option A) * stats exact)) : Prop :=
  exists b c st, c_new = Ok (b, c) /\
    c_run eqb hash adef (st_new exact) (fun s x => st_add exact s (Fin x)) 0%Q cube_add opt n (b, c)
      (map (fun e => CAdd (fst e) (snd e)) data ++ [CCube; CWalk]) = Ok (repeat CNone (length data) ++ [CNone; CEntries l], st).

(** A StatsCube made without arguments has one entry for each pattern with an any that the
    key of a sample fits, with the statistics of all samples that fit; no entry for a key. *)
Theorem C113_default : forall (A : Type) (eqb : A -> A -> bool) (hash : A -> Z) (adef : A) (n : nat) (data : list (list A * Q)),
  (forall a b, eqb a b = true <-> a = b) -> (forall e, In e data -> length (fst e) = n) ->
  (N.of_nat (length data) * (1 + 2 ^ N.of_nat n) < 283301878)%N ->
  exists l, cube_of eqb hash adef addFullStats cubeHadAny n data l /\ NoDup (map fst l) /\
    (forall p, In p (map fst l) <-> In None p /\ exists k x, In (k, x) data /\ fits eqb p k = true) /\
    forall p s, In (p, s) l -> let xs := fitting eqb p data in
      st_count exact s = Z.of_nat (length xs) /\ fin_eq (st_total exact s) (qsum xs) /\ is_min (min_value s) xs /\ is_max (max_value s) xs /\
      fin_eq (st_mean exact s) (qmean xs) /\ fin_eq (st_variance exact s) (qvar xs).
Proof.
  intros A eqb hash adef n data E L C. destruct (C38_cube_of_samples A eqb hash adef cubeHadAny n data E L C) as (b & c & l & st & En & Er & ND & K & V). exists l. split; [now exists b, c, st|]. split; [exact ND|]. split; [|exact V].
  intros p. rewrite K. assert (Q : cubeHadAny (has_any p) p = true <-> In None p); [|tauto].
  unfold cubeHadAny, has_any. rewrite existsb_exists. split; [intros ([x|] & I & H); [discriminate|exact I]|]. intros I. now exists None.
Qed.
Print Assumptions C113_default.

(** With cubeAll every key of a sample also has its own entry. *)
Theorem C113_all : forall (A : Type) (eqb : A -> A -> bool) (hash : A -> Z) (adef : A) (n : nat) (data : list (list A * Q)),
  (forall a b, eqb a b = true <-> a = b) -> (forall e, In e data -> length (fst e) = n) ->
  (N.of_nat (length data) * (1 + 2 ^ N.of_nat n) < 283301878)%N ->
  exists l, cube_of eqb hash adef addFullStats cubeAll n data l /\ NoDup (map fst l) /\
    (forall p, In p (map fst l) <-> exists k x, In (k, x) data /\ fits eqb p k = true) /\
    forall p s, In (p, s) l -> let xs := fitting eqb p data in
      st_count exact s = Z.of_nat (length xs) /\ fin_eq (st_total exact s) (qsum xs) /\ is_min (min_value s) xs /\ is_max (max_value s) xs /\
      fin_eq (st_mean exact s) (qmean xs) /\ fin_eq (st_variance exact s) (qvar xs).
Proof.
  intros A eqb hash adef n data E L C. destruct (C38_cube_of_samples A eqb hash adef cubeAll n data E L C) as (b & c & l & st & En & Er & ND & K & V). exists l. split; [now exists b, c, st|]. split; [exact ND|]. split; [|exact V].
  intros p. rewrite K. unfold cubeAll. tauto.
Qed.
Print Assumptions C113_all.

Section gathers.
Context {A : Type}.
Variable eqb : A -> A -> bool.
Variable opt : bool -> list (option A) -> bool.
Lemma gather_mean p data : wanted opt p = true -> (forall k, (Z.of_nat (length (values eqb k data)) < 2 ^ 64)%Z) ->
  forall (o : list (list A * stats exact)) e (g : list (list A * Q)), (forall k s, In (k, s) o -> Rep s (values eqb k data) /\ values eqb k data <> []) ->
  match e with Some s => Rep s (map snd g) | None => g = [] end ->
  exists g', map fst g' = filter (fits eqb p) (map fst o) /\ (forall k m, In (k, m) g' -> m == qmean (values eqb k data))%Q /\
  match gather eqb (st_new exact) addMean opt p o e with
  | Some s => Rep s (map snd (g ++ g'))
  | None => e = None /\ g' = []
  end.
Proof.
  intros W SM. induction o as [|[k v] o IH]; intros e g HR He; cbn [gather map filter fst].
  - exists []. split; [reflexivity|]. split; [intros ? ? []|]. rewrite app_nil_r. destruct e; auto.
  - destruct (HR k v (or_introl eq_refl)) as (Rv & NE). rewrite W, andb_true_r. destruct (fits eqb p k) eqn:F.
    + destruct (Rep_mean v _ Rv (SM k) NE) as (m & Em & Qm).
      destruct (IH (Some (addMean (match e with Some s => s | None => st_new exact end) v)) (g ++ [(k, m)])) as (g' & K & M & G).
      * intros k' s' I. apply HR. now right.
      * unfold addMean. rewrite Em, map_app. apply Rep_add. destruct e; [exact He|]. subst g. apply Rep_new.
      * exists ((k, m) :: g'). split; [cbn [map fst]; now rewrite K|]. split; [intros k' m' [I|I]; [injection I as <- <-; exact Qm|now apply M]|].
        destruct (gather _ _ _ _ _ _ _); [rewrite <- app_assoc in G; exact G|]. destruct G; discriminate.
    + apply IH; [|exact He]. intros k' s' I. apply HR. now right.
Qed.
Lemma unwanted_none p o e : wanted opt p = false -> gather eqb (st_new exact) addMean opt p o e = e.
Proof. intros W. revert e. induction o as [|[k v] o IH]; intros e; cbn [gather]; [reflexivity|]. rewrite W, andb_false_r. apply IH. Qed.
End gathers.

(** With addMean the entry of a pattern has the statistics of the means of the groups: one
    mean for each key of a sample that fits, whatever the number of samples under it. *)
Theorem C113_means : forall (A : Type) (eqb : A -> A -> bool) (hash : A -> Z) (adef : A) (opt : bool -> list (option A) -> bool) (n : nat) (data : list (list A * Q)),
  (forall a b, eqb a b = true <-> a = b) -> (forall e, In e data -> length (fst e) = n) ->
  (N.of_nat (length data) * (1 + 2 ^ N.of_nat n) < 283301878)%N ->
  exists l, cube_of eqb hash adef addMean opt n data l /\ NoDup (map fst l) /\
    (forall p, In p (map fst l) <-> opt (has_any p) p = true /\ exists k x, In (k, x) data /\ fits eqb p k = true) /\
    forall p s, In (p, s) l -> exists groups : list (list A * Q),
      NoDup (map fst groups) /\
      (forall k, In k (map fst groups) <-> fits eqb p k = true /\ exists x, In (k, x) data) /\
      (forall k m, In (k, m) groups -> m == qmean (values eqb k data))%Q /\
      let xs := map snd groups in
      st_count exact s = Z.of_nat (length xs) /\ fin_eq (st_total exact s) (qsum xs) /\ is_min (min_value s) xs /\ is_max (max_value s) xs /\
      fin_eq (st_mean exact s) (qmean xs) /\ fin_eq (st_variance exact s) (qvar xs).
Proof.
  intros A eqb hash adef opt n data E L C. set (xadd := fun s x => st_add exact s (Fin x)).
  destruct (C38_cube_history A _ _ eqb hash adef (st_new exact) xadd 0%Q addMean opt n (map (fun e => CAdd (fst e) (snd e)) data ++ [CCube; CWalk]) E) as (b & c & outs & st & s' & En & Er & H).
  - apply Forall_app. split; [|repeat constructor]. apply Forall_forall. intros o Ho. apply in_map_iff in Ho. destruct Ho as (e & <- & He). exact (L e He).
  - rewrite cost_adds. cbn [cost]. lia.
  - destruct (adds_state eqb (st_new exact) xadd 0%Q addMean opt n E data [] (fun _ => None) (fun _ => None) [CCube; CWalk] outs s') as (b' & outs' & -> & Hb & H'); [reflexivity|exact H|]. cbn [app] in Hb.
    inversion H' as [|s o out s1 r0 outs0 s2 St H2]. subst. inversion St as [ | |b0 c0 rows c' (NDr & LR) HG E1 E2 E3| | | | | | | | | | |]. subst. inversion H2 as [|s o out s1 r0 outs1 s2 St2 H3]. subst. inversion H3. subst. inversion St2 as [ | | | | |b1 c1 l (ND & LI) F1 F2 F3| | | | | | | |]. subst.
    exists l. split; [now exists b, c, st|]. split; [exact ND|].
    assert (Small : (N.of_nat (length data) < 283301878)%N) by (assert (0 < 2 ^ N.of_nat n)%N by (apply N.neq_0_lt_0, N.pow_nonzero; discriminate); nia).
    assert (SM : forall k, (Z.of_nat (length (values eqb k data)) < 2 ^ 64)%Z).
    { intros k. assert (length (values eqb k data) <= length data) by (unfold values; rewrite map_length; apply filter_le). change (2 ^ 64)%Z with 18446744073709551616%Z. lia. }
    assert (RR : forall k s, In (k, s) rows -> Rep s (values eqb k data) /\ values eqb k data <> []).
    { intros k s I. apply LR in I. rewrite Hb in I. apply base_some in I. destruct I as (NE & ->). split; [apply (Rep_fold (values eqb k data) (st_new exact) [] Rep_new)|exact NE]. }
    assert (KEY : forall k, In k (map fst rows) <-> exists x, In (k, x) data).
    { intros k. rewrite <- (values_nonempty eqb E k data). split.
      - intros I. apply in_map_iff in I as ((k' & s) & <- & I). now apply RR in I.
      - intros V. apply in_map_iff. exists (k, fold_left xadd (values eqb k data) (st_new exact)). split; [reflexivity|]. apply LR. rewrite Hb. apply base_some. split; [exact V|reflexivity]. }
    assert (GR : forall p, if wanted opt p then exists g, map fst g = filter (fits eqb p) (map fst rows) /\ (forall k m, In (k, m) g -> m == qmean (values eqb k data))%Q /\
        match c' p with Some s => Rep s (map snd g) | None => g = [] end else c' p = None).
    { intros p. rewrite HG. destruct (wanted opt p) eqn:W; [|now apply unwanted_none]. destruct (gather_mean eqb opt p data W SM rows None [] RR eq_refl) as (g & K & M & G). exists g. split; [exact K|]. split; [exact M|]. destruct (gather _ _ _ _ _ _ _); [exact G|apply G]. }
    assert (SOME : forall p g, map fst g = filter (fits eqb p) (map fst rows) -> forall k, In k (map (@fst (list A) Q) g) <-> fits eqb p k = true /\ exists x, In (k, x) data).
    { intros p g K k. unfold tuple in *. rewrite K, filter_In, KEY. tauto. }
    assert (NONE : forall p o, (forall k v, In (k, v) o -> fits eqb p k = false) -> gather eqb (st_new exact) addMean opt p o None = None).
    { intros p. induction o as [|[k v] o IH]; intros HN; cbn [gather]; [reflexivity|]. rewrite (HN k v) by (now left). cbn [andb]. apply IH. intros k' v' I. apply (HN k' v'). now right. }
    assert (NE : forall p s g, c' p = Some s -> map fst g = filter (fits eqb p) (map fst rows) -> map (@snd (list A) Q) g <> []).
    { intros p s g Q K Z. rewrite HG, NONE in Q; [discriminate|]. intros k v I. destruct (fits eqb p k) eqn:F; [|reflexivity]. exfalso. assert (J : In k (filter (fits eqb p) (map fst rows))) by (apply filter_In; split; [apply in_map_iff; now exists (k, v)|exact F]). unfold tuple in *. rewrite <- K in J. destruct g; [destruct J|discriminate]. }
    split.
    + intros p. fold (wanted opt p). specialize (GR p). split.
      * intros I. apply in_map_iff in I. destruct I as ((p1 & s) & <- & I). apply LI in I. cbn [fst] in *. destruct (wanted opt p1) eqn:W; [|congruence]. split; [reflexivity|]. destruct GR as (g & K & _ & _). specialize (NE p1 s g I K). destruct g as [|[k m] g]; [now destruct NE|]. destruct (proj1 (SOME p1 _ K k)) as (F & x & J); [now left|]. now exists k, x.
      * intros (W & k & x & I & F). rewrite W in GR. destruct GR as (g & K & _ & G). destruct (c' p) as [s|] eqn:Q.
        -- apply in_map_iff. exists (p, s). split; [reflexivity|]. now apply LI.
        -- subst g. destruct (proj2 (SOME p [] K k)). split; [exact F|now exists x].
    + intros p s I. apply LI in I. specialize (GR p). rewrite I in GR. destruct (wanted opt p); [|discriminate]. destruct GR as (g & K & M & G). exists g. unfold tuple in *. split; [rewrite K; now apply NoDup_filter|]. split; [now apply SOME|]. split; [exact M|].
      cbv zeta. set (xs := map (@snd (list A) Q) g). specialize (NE p s g I K). fold xs in G, NE.
      assert (SX : (Z.of_nat (length xs) < 2 ^ 64)%Z).
      { assert (LG : length xs = length (filter (fits eqb p) (map fst rows))) by (unfold xs; unfold tuple in *; rewrite <- K, !map_length; reflexivity). pose proof (filter_le (fits eqb p) (map fst rows)) as Q1.
        assert (Q2 : length (map (@fst (list A) (stats exact)) rows) <= length (map (@fst (list A) Q) data)) by (apply NoDup_incl_length; [exact NDr|]; intros k J; apply KEY in J as (x & J); apply in_map_iff; now exists (k, x)). rewrite (map_length (@fst (list A) Q) data) in Q2. change (2 ^ 64)%Z with 18446744073709551616%Z. unfold tuple in *. lia. }
      split; [exact (Rep_number _ _ G SX)|]. split; [apply G|]. split; [apply G|]. split; [apply G|]. split; [now apply Rep_mean|now apply Rep_variance].
Qed.
Print Assumptions C113_means.

(** Three samples, two of them under one key: the means differ from the samples. *)
Definition ex_entries (cube_add : stats exact -> stats exact -> stats exact) opt := match c_new with
  | Ok st => match c_run Nat.eqb Z.of_nat 0 (st_new exact) (fun s x => st_add exact s (Fin x)) 0%Q cube_add opt 2 st
       [CAdd [1; 5] 10%Q; CAdd [1; 6] 20%Q; CAdd [1; 5] 30%Q; CCube; CSize; CGet [Some 1; None]] with
     | Ok (outs, _) => map (fun o => match o with CNum n => (n, 0%Z, Fin 0) | CStat s => (0, number s, st_mean exact s) | _ => (0, 0%Z, Fin 0) end) (skipn 4 outs)
     | _ => [] end
  | _ => []
  end.
Example C113_ex :
  map (fun e => let '(a, b, c) := e in (a, b, match c with Fin q => Fin (Qred q) | o => o end)) (ex_entries addFullStats cubeHadAny) = [(4, 0%Z, Fin 0); (0, 3%Z, Fin 20)] /\
  map (fun e => let '(a, b, c) := e in (a, b)) (ex_entries addMean cubeAll) = [(6, 0%Z); (0, 2%Z)].
Proof. split; vm_compute; reflexivity. Qed.
