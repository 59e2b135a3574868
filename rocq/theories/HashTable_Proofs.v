(** Proofs about HashTable_Model.v: the representation invariant and what each
    operation does to the set of live slots. *)
From Coq Require Import List Arith NArith Lia Bool Permutation.
From Verif Require Import Common CommonFacts HashTable_Model.
Import ListNotations.

(** The largest table size: last non-zero prime. *)
Definition max_prime : N := 141650939%N.

Lemma scan_gt old :
  (exists p, scan_primes (fun p => N.leb p old) HashTable_prime_list = Ok p
             /\ (old < p)%N)
  \/ (scan_primes (fun p => N.leb p old) HashTable_prime_list = Abort /\ (max_prime <= old)%N).
Proof.
  unfold HashTable_prime_list, max_prime.
  repeat match goal with
  | |- context [scan_primes ?f (?p :: ?r)] =>
    change (scan_primes f (p :: r)) with
      (if N.leb p old then (if N.eqb p 0 then Abort else scan_primes f r) else Ok p);
    destruct (N.leb_spec p old); [|left; eexists; split; [reflexivity|assumption]];
    cbn [N.eqb Pos.eqb]
  end.
  right; split; auto.
Qed.

Lemma scan_ge want :
  (exists p, scan_primes (fun p => N.ltb p want) HashTable_prime_list = Ok p
             /\ (want <= p)%N /\ (0 < p)%N /\ (want <= max_prime)%N)
  \/ (scan_primes (fun p => N.ltb p want) HashTable_prime_list = Abort /\ (max_prime < want)%N).
Proof.
  unfold HashTable_prime_list, max_prime.
  repeat match goal with
  | |- context [scan_primes ?f (?p :: ?r)] =>
    change (scan_primes f (p :: r)) with
      (if N.ltb p want then (if N.eqb p 0 then Abort else scan_primes f r) else Ok p);
    destruct (N.ltb_spec p want);
      [|try (left; eexists; split; [reflexivity|]; lia); exfalso; lia];
    cbn [N.eqb Pos.eqb]
  end.
  right; split; auto; lia.
Qed.

Section HTP.
Set Default Proof Using "Type".
Context {D : Type}.
Variable hashfn : D -> N.
Variable equal : D -> D -> bool.
Variable default : D.

Notation ht := (@ht D).
Notation bucket_of := (bucket_of hashfn).
Notation cell := (D * option nat)%type.

Inductive path (cs : list cell) : option nat -> list nat -> Prop :=
| path_nil : path cs None []
| path_cons i d n l : nth_error cs i = Some (d, n) -> path cs n l -> path cs (Some i) (i :: l).

Definition dat (cs : list cell) (i : nat) : list (nat * D) :=
  match nth_error cs i with Some (d, _) => [(i, d)] | None => [] end.
Definition live_of (cs : list cell) (l : list nat) : list (nat * D) := flat_map (dat cs) l.

Record rep (t : ht) (css : list (list nat)) (fl : list nat) : Prop := mk_rep {
  r_ep : Forall2 (path (chains t)) (entry_points t) css;
  r_fl : path (chains t) (free_list t) fl;
  r_fls : length fl = free_list_size t;
  r_perm : Permutation (concat css ++ fl) (seq 0 (length (chains t)));
  r_hash : forall h c i d n, nth_error css h = Some c -> In i c ->
             nth_error (chains t) i = Some (d, n) -> bucket_of (length (entry_points t)) d = h;
  r_ne : entry_points t = [] -> chains t = [];
  r_tcl : 0 < tcl_num t /\ 0 < tcl_den t
}.

(** [Live t l]: [l] lists the live slots (with their contents), chain by chain. *)
Definition Live (t : ht) (l : list (nat * D)) : Prop :=
  exists css fl, rep t css fl /\ l = live_of (chains t) (concat css).

(** *** Paths *)
Lemma path_ext cs cs' o l :
  (forall i, In i l -> option_map snd (nth_error cs' i) = option_map snd (nth_error cs i)) ->
  path cs o l -> path cs' o l.
Proof.
  intros H P; induction P as [|i d n l E P IH]; [constructor|].
  assert (Hi := H i (or_introl eq_refl)). rewrite E in Hi; simpl in Hi.
  destruct (nth_error cs' i) as [[d' n']|] eqn:E'; simpl in Hi; [|discriminate].
  inversion Hi; subst. econstructor; eauto. apply IH. intros; apply H; simpl; auto.
Qed.

Lemma path_upd cs o l i x : ~ In i l -> path cs o l -> path (upd cs i x) o l.
Proof. intros H; apply path_ext; intros j Hj.
  rewrite nth_error_upd_neq; auto. intros ->; auto. Qed.

Lemma path_snoc cs o l x : path cs o l -> path (cs ++ [x]) o l.
Proof. intros P; induction P; econstructor; eauto.
  rewrite nth_error_app1; eauto using nth_error_lt. Qed.

Lemma path_lt cs o l i : path cs o l -> In i l -> i < length cs.
Proof. clear hashfn equal default. intros P; induction P; simpl; [tauto|]; intros [->|Hi]; eauto using nth_error_lt. Qed.

Lemma path_det cs o l1 l2 : path cs o l1 -> path cs o l2 -> l1 = l2.
Proof. intros P; revert l2; induction P; intros l2 Q; inversion Q; subst; auto.
  f_equal. apply IHP. congruence. Qed.

Lemma path_unlink cs o l1 p i l2 :
  path cs o (l1 ++ p :: i :: l2) -> NoDup (l1 ++ p :: i :: l2) ->
  exists pd d n, nth_error cs p = Some (pd, Some i) /\ nth_error cs i = Some (d, n)
    /\ path (upd cs p (pd, n)) o (l1 ++ p :: l2).
Proof. clear hashfn equal default.
  revert o; induction l1 as [|x l1 IH]; simpl; intros o P ND.
  - inversion P as [|? pd n' ? Ep P']; subst.
    inversion P' as [|? d n ? Ei P'']; subst.
    exists pd, d, n; split; [|split]; auto.
    econstructor; [apply nth_error_upd_eq; eauto using nth_error_lt|].
    apply path_upd; auto. inversion ND; subst. simpl in *; tauto.
  - inversion P as [|? xd n' ? Ex P']; subst. inversion ND; subst.
    destruct (IH _ P' H2) as (pd & d & n & E1 & E2 & P2).
    exists pd, d, n; split; [|split]; auto. econstructor; eauto.
    rewrite nth_error_upd_neq; eauto.
    intros ->; apply H1; apply in_or_app; simpl; auto.
Qed.

Lemma path_head cs o i l : path cs o (i :: l) ->
  exists d n, o = Some i /\ nth_error cs i = Some (d, n) /\ path cs n l.
Proof. intros P; inversion P; subst; eauto. Qed.

Lemma path_suffix cs o l1 i l2 : path cs o (l1 ++ i :: l2) -> path cs (Some i) (i :: l2).
Proof. revert o; induction l1; simpl; intros o P; inversion P; subst; eauto using path. Qed.

(** *** Consequences of [rep] *)
Lemma rep_nodup t css fl : rep t css fl -> NoDup (concat css ++ fl).
Proof. intros R; eapply Permutation_NoDup; [apply Permutation_sym, (r_perm _ _ _ R)|apply seq_NoDup]. Qed.

Lemma rep_in_lt t css fl i : rep t css fl -> In i (concat css ++ fl) -> i < length (chains t).
Proof. intros R H. apply (Permutation_in _ (r_perm _ _ _ R)), in_seq in H. lia. Qed.

Lemma rep_len t css fl : rep t css fl -> length (concat css) + length fl = length (chains t).
Proof. intros R; assert (H := Permutation_length (r_perm _ _ _ R)).
  now rewrite app_length, seq_length in H. Qed.

Lemma in_concat_nth {A} (css : list (list A)) h c i : nth_error css h = Some c -> In i c -> In i (concat css).
Proof. intros H1 H2; apply in_concat; exists c; split; auto. eapply nth_error_In; eauto. Qed.

Lemma in_concat_ex {A} (css : list (list A)) i : In i (concat css) -> exists h c, nth_error css h = Some c /\ In i c.
Proof. intros H; apply in_concat in H; destruct H as (c & H1 & H2).
  apply In_nth_error in H1; destruct H1 as [h Hh]; eauto. Qed.

Lemma rep_nodup_chain t css fl h c : rep t css fl -> nth_error css h = Some c -> NoDup c.
Proof. intros R E. assert (ND := NoDup_app_l _ _ (rep_nodup _ _ _ R)).
  clear R; revert h E; induction css as [|x css IH]; intros [|h] E; simpl in *; try discriminate.
  - inversion E; subst. eapply NoDup_app_l; eauto.
  - eapply IH; eauto. eapply NoDup_app_r; eauto. Qed.

Lemma rep_len_chain t css fl h c : rep t css fl -> nth_error css h = Some c -> length c <= length (chains t).
Proof. intros R E. assert (L := rep_len _ _ _ R).
  destruct (concat_upd_perm css h c [] E) as (r & H & _).
  apply Permutation_length in H; rewrite app_length in H. lia. Qed.

Lemma bucket_lt n d : 0 < n -> bucket_of n d < n.
Proof. intros H. unfold HashTable_Model.bucket_of.
  assert (hashfn d mod N.of_nat n < N.of_nat n)%N by (apply N.mod_lt; lia). lia. Qed.

(** *** live_of *)
Lemma live_of_app cs l1 l2 : live_of cs (l1 ++ l2) = live_of cs l1 ++ live_of cs l2.
Proof. apply flat_map_app. Qed.
Lemma live_of_cons cs i l d n : nth_error cs i = Some (d, n) -> live_of cs (i :: l) = (i, d) :: live_of cs l.
Proof. intros E; unfold live_of; simpl; unfold dat at 1; now rewrite E. Qed.
Lemma live_of_ext cs cs' l :
  (forall i, In i l -> option_map fst (nth_error cs' i) = option_map fst (nth_error cs i)) ->
  live_of cs' l = live_of cs l.
Proof. intros H; apply flat_map_ext_in; intros i Hi; specialize (H i Hi); unfold dat.
  destruct (nth_error cs' i) as [[]|], (nth_error cs i) as [[]|]; simpl in H; congruence. Qed.
Lemma live_of_perm cs l1 l2 : Permutation l1 l2 -> Permutation (live_of cs l1) (live_of cs l2).
Proof. apply Permutation_flat_map. Qed.
Lemma in_live_of cs l i d : In (i, d) (live_of cs l) <-> In i l /\ exists n, nth_error cs i = Some (d, n).
Proof. clear hashfn equal default.
  unfold live_of; rewrite in_flat_map; split.
  - intros (j & Hj & H). unfold dat in H. destruct (nth_error cs j) as [[d' n]|] eqn:E; simpl in H; [|tauto].
    destruct H as [H|[]]; inversion H; subst; eauto.
  - intros (H & n & E). exists i; split; auto. unfold dat; rewrite E; simpl; auto.
Qed.
Lemma live_of_fst cs l : (forall i, In i l -> i < length cs) -> map fst (live_of cs l) = l.
Proof. induction l as [|i l IH]; intros H; auto.
  destruct (get_lt cs i) as ([d n] & E & _); [apply H; simpl; auto|].
  rewrite (live_of_cons _ _ _ _ _ E); simpl; f_equal; apply IH; intros; apply H; simpl; auto. Qed.

Lemma rep_live_fst t css fl : rep t css fl -> map fst (live_of (chains t) (concat css)) = concat css.
Proof. intros R; apply live_of_fst; intros i Hi; eapply rep_in_lt; eauto; apply in_or_app; auto. Qed.

(** *** Lookup *)
Lemma chain_find_spec p cs o l fuel : path cs o l -> length l < fuel ->
  (exists la i lb d n, l = la ++ i :: lb /\ nth_error cs i = Some (d, n) /\ p d = true
      /\ (forall j dj nj, In j la -> nth_error cs j = Some (dj, nj) -> p dj = false)
      /\ chain_find fuel cs p o = Ok (Some i))
  \/ ((forall j d n, In j l -> nth_error cs j = Some (d, n) -> p d = false)
      /\ chain_find fuel cs p o = Ok None).
Proof. clear hashfn equal default.
  intros P; revert fuel; induction P as [|i d n l E P IH]; intros fuel F.
  - right; split; [simpl; tauto|]. destruct fuel; auto.
  - destruct fuel as [|fuel]; simpl in F; [lia|]. cbn [chain_find].
    rewrite (get_Some _ _ _ E); cbn [bind].
    destruct (p d) eqn:Ep.
    + left; exists [], i, l, d, n; simpl; repeat split; auto; intros; tauto.
    + destruct (IH fuel) as [(la & i' & lb & d' & n' & -> & E' & Ep' & Hla & C)|(Hn & C)]; [lia| |].
      * left; exists (i :: la), i', lb, d', n'; repeat split; auto.
        intros j dj nj [<-|Hj] Ej; [congruence|eauto].
      * right; split; auto. intros j dj nj [<-|Hj] Ej; [congruence|eauto].
Qed.

Lemma chain_walk_spec cs o l fuel : path cs o l -> length l < fuel -> chain_walk fuel cs o = Ok l.
Proof. intros P; revert fuel; induction P as [|i d n l E P IH]; intros fuel F; destruct fuel as [|fuel]; simpl in F; try lia; auto.
  cbn [chain_walk]. rewrite (get_Some _ _ _ E); cbn [bind]. rewrite IH; [auto|lia]. Qed.

Definition eq_hash := forall a b, equal a b = true -> hashfn a = hashfn b.

Lemma chain_at t css fl k : rep t css fl -> 0 < length (entry_points t) ->
  exists e c, nth_error (entry_points t) (bucket_of (length (entry_points t)) k) = Some e
    /\ nth_error css (bucket_of (length (entry_points t)) k) = Some c
    /\ path (chains t) e c.
Proof.
  intros R H. destruct (get_lt (entry_points t) (bucket_of (length (entry_points t)) k)) as (e & E & _).
  { now apply bucket_lt. }
  destruct (Forall2_nth_l _ _ _ _ _ (r_ep _ _ _ R) E) as (c & Ec & P). eauto 8.
Qed.

Lemma not_in_other t css fl k i d h c :
  eq_hash -> rep t css fl ->
  nth_error css h = Some c -> In i c -> (exists n, nth_error (chains t) i = Some (d, n)) ->
  equal k d = true -> h = bucket_of (length (entry_points t)) k.
Proof. intros EH R Ec Hi [n En] Eq.
  rewrite <- (r_hash _ _ _ R _ _ _ _ _ Ec Hi En).
  unfold HashTable_Model.bucket_of. now rewrite (EH _ _ Eq). Qed.

Lemma ep_nil_live t css fl : rep t css fl -> length (entry_points t) = 0 -> css = [] /\ chains t = [].
Proof. intros R H. apply length_zero_iff_nil in H.
  assert (F := r_ep _ _ _ R). rewrite H in F; inversion F; subst. split; auto. now apply (r_ne _ _ _ R). Qed.

Lemma ht_lookup_spec t css fl k : eq_hash -> rep t css fl ->
  (exists i d, ht_lookup hashfn equal t k = Ok (Some i)
      /\ In (i, d) (live_of (chains t) (concat css)) /\ equal k d = true)
  \/ (ht_lookup hashfn equal t k = Ok None
      /\ forall i d, In (i, d) (live_of (chains t) (concat css)) -> equal k d = false).
Proof.
  intros EH R. unfold ht_lookup.
  destruct (Nat.eqb_spec (length (entry_points t)) 0) as [H0|H0].
  - right; split; auto. destruct (ep_nil_live _ _ _ R H0) as [-> _]. simpl; tauto.
  - destruct (chain_at t css fl k R) as (e & c & Ee & Ec & P); [lia|].
    rewrite (get_Some _ _ _ Ee); cbn [bind].
    assert (HL := rep_len_chain _ _ _ _ _ R Ec).
    destruct (chain_find_spec (equal k) _ _ _ (fuel_of t) P) as [(la & i & lb & d & n & -> & E & Ep & _ & C)|(Hn & C)].
    { unfold fuel_of; lia. }
    + left; exists i, d; split; [exact C|split; auto]. apply in_live_of; split; eauto.
      eapply in_concat_nth; eauto. apply in_or_app; simpl; auto.
    + right; split; auto. intros i d Hin. apply in_live_of in Hin; destruct Hin as (Hi & Hn').
      destruct (equal k d) eqn:Eq; auto.
      destruct (in_concat_ex _ _ Hi) as (h & c' & Ec' & Hi').
      assert (h = _) by (eapply not_in_other; eauto). subst h.
      rewrite Ec in Ec'; inversion Ec'; subst. destruct Hn' as [n E].
      rewrite (Hn _ _ _ Hi' E) in Eq; discriminate.
Qed.

(** *** Writing through a pointer *)
Definition set_data (t : ht) (i : nat) (d : D) : res ht :=
  let! (_, n) := get (chains t) i in
  let! cs := put (chains t) i (d, n) in
  Ok (mk_ht (free_list t) (free_list_size t) cs (entry_points t) (tcl_num t) (tcl_den t)).

Lemma set_data_spec t css fl i d d' : rep t css fl ->
  In (i, d) (live_of (chains t) (concat css)) -> hashfn d' = hashfn d ->
  exists t', set_data t i d' = Ok t' /\ rep t' css fl
    /\ chains t' = upd (chains t) i (d', match nth_error (chains t) i with Some (_, n) => n | None => None end)
    /\ length (entry_points t') = length (entry_points t) /\ tcl_num t' = tcl_num t /\ tcl_den t' = tcl_den t.
Proof.
  intros R Hin HH. apply in_live_of in Hin; destruct Hin as (Hi & n & E).
  unfold set_data. rewrite (get_Some _ _ _ E); cbn [bind].
  rewrite put_ok by eauto using nth_error_lt; cbn [bind].
  eexists; split; [reflexivity|]. rewrite E; simpl.
  assert (X : forall j, option_map snd (nth_error (upd (chains t) i (d', n)) j) = option_map snd (nth_error (chains t) j)).
  { intros j. rewrite nth_error_upd. destruct (Nat.eqb_spec i j) as [<-|]; simpl; auto.
    rewrite E; simpl. destruct (i <? _); auto. }
  split; [|auto 6]. destruct R as [R1 R2 R3 R4 R5 R6 R7]; split; simpl; auto.
  - eapply Forall2_impl_in; [|exact R1]. intros o l _ _; apply path_ext; auto.
  - eapply path_ext; [|exact R2]; auto.
  - now rewrite length_upd.
  - intros h c j dj nj Ec Hj. rewrite nth_error_upd. destruct (Nat.eqb_spec i j) as [<-|]; simpl.
    + rewrite (proj2 (Nat.ltb_lt _ _) (nth_error_lt _ _ _ E)). inversion 1; subst.
      rewrite <- (R5 _ _ _ _ _ Ec Hj E). unfold HashTable_Model.bucket_of. now rewrite HH.
    + intros; eauto.
  - intros H0. rewrite (R6 H0). destruct i; auto.
Qed.

(** *** Unlinking a slot *)
Definition unlinked (t : ht) (cs : list cell) (ep : list (option nat)) (i : nat) : ht :=
  mk_ht (Some i) (S (free_list_size t)) (upd cs i (default, free_list t)) ep (tcl_num t) (tcl_den t).

Definition is_unlink (t : ht) (h i : nat) (n : option nat) (l1 : list nat) (cs' : list cell) (ep' : list (option nat)) : Prop :=
  (l1 = [] /\ cs' = chains t /\ ep' = upd (entry_points t) h n)
  \/ (exists l1' p pd, l1 = l1' ++ [p] /\ nth_error (chains t) p = Some (pd, Some i)
        /\ cs' = upd (chains t) p (pd, n) /\ ep' = entry_points t).

Lemma unlink_spec t css fl h l1 i l2 d n cs' ep' :
  rep t css fl -> nth_error css h = Some (l1 ++ i :: l2) ->
  nth_error (chains t) i = Some (d, n) ->
  is_unlink t h i n l1 cs' ep' ->
  rep (unlinked t cs' ep' i) (upd css h (l1 ++ l2)) (i :: fl)
  /\ Permutation (live_of (chains t) (concat css))
                 ((i, d) :: live_of (upd cs' i (default, free_list t)) (concat (upd css h (l1 ++ l2)))).
Proof. clear equal.
  intros R Ec Ei U.
  destruct (Forall2_nth_r _ _ _ _ _ (r_ep _ _ _ R) Ec) as (e & Ee & P).
  assert (NDc := rep_nodup_chain _ _ _ _ _ R Ec).
  assert (ND := rep_nodup _ _ _ R).
  destruct (concat_upd_perm css h _ (l1 ++ l2) Ec) as (rest & P1 & P2).
  assert (Pc : Permutation (concat css) (i :: concat (upd css h (l1 ++ l2)))).
  { rewrite P1, P2, <- !app_assoc; simpl. symmetry; apply Permutation_middle. }
  assert (Hcs : forall j, option_map fst (nth_error cs' j) = option_map fst (nth_error (chains t) j)).
  { destruct U as [(-> & -> & ->)|(l1' & p & pd & -> & Ep & -> & ->)]; auto.
    intros j; rewrite nth_error_upd. destruct (Nat.eqb_spec p j) as [<-|]; simpl; auto.
    rewrite Ep; simpl. destruct (p <? _); auto. }
  assert (Hlen : length cs' = length (chains t)).
  { destruct U as [(-> & -> & ->)|(l1' & p & pd & -> & Ep & -> & ->)]; auto. apply length_upd. }
  assert (Hni : ~ In i (concat (upd css h (l1 ++ l2)))).
  { assert (N1 := Permutation_NoDup Pc (NoDup_app_l _ _ ND)). now inversion N1. }
  assert (Hnfl : ~ In i fl).
  { intros Hi. eapply NoDup_app_disj; [exact ND| |exact Hi].
    eapply in_concat_nth; eauto. apply in_or_app; simpl; auto. }
  (* other paths keep their links *)
  assert (Hother : forall o l, path (chains t) o l ->
     (forall x, In x l -> ~ In x (l1 ++ [i])) -> path (upd cs' i (default, free_list t)) o l).
  { intros o l Pl Hd. eapply path_ext; [|exact Pl]. intros j Hj.
    assert (Hj' := Hd j Hj). rewrite nth_error_upd_neq by (intros ->; apply Hj', in_or_app; simpl; auto).
    destruct U as [(-> & -> & ->)|(l1' & p & pd & -> & Ep & -> & ->)]; auto.
    rewrite nth_error_upd_neq; auto. intros ->. apply Hj'. rewrite !in_app_iff; simpl; auto. }
  assert (Hnc := NoDup_remove_2 _ _ _ NDc).
  assert (Pnew : exists e', nth_error ep' h = Some e' /\ path (upd cs' i (default, free_list t)) e' (l1 ++ l2)).
  { destruct U as [(-> & -> & ->)|(l1' & p & pd & -> & Ep & -> & ->)].
    - exists n; split; [apply nth_error_upd_eq; eauto using nth_error_lt|].
      simpl in *. apply path_head in P. destruct P as (d1 & n1 & -> & E1 & P1').
      rewrite Ei in E1; inversion E1; subst.
      apply path_upd; auto.
    - exists e; split; auto. rewrite <- app_assoc in *; simpl in *.
      destruct (path_unlink _ _ _ _ _ _ P NDc) as (pd' & d' & n' & E1 & E2 & P3).
      rewrite Ep in E1; inversion E1; subst. rewrite Ei in E2; inversion E2; subst.
      apply path_upd; auto. }
  destruct Pnew as (e' & Ee' & Pnew).
  assert (Hep : ep' = upd (entry_points t) h e').
  { destruct U as [(-> & -> & ->)|(l1' & p & pd & -> & Ep & -> & ->)].
    - rewrite nth_error_upd_eq in Ee' by eauto using nth_error_lt. congruence.
    - rewrite upd_same; auto. }
  assert (Hdis : forall h' c', h' <> h -> nth_error css h' = Some c' -> forall x, In x c' -> ~ In x (l1 ++ [i])).
  { intros h' c' Hh Ec' x Hx Hx'.
    assert (Hx2 : In x (l1 ++ i :: l2)) by (rewrite in_app_iff in *; simpl in *; tauto).
    clear - ND Ec Ec' Hh Hx Hx2. apply NoDup_app_l in ND.
    revert h h' Ec Ec' Hh. induction css as [|c0 css' IH]; intros [|h] [|h'] Ec Ec' Hh; simpl in *; try discriminate; try lia.
    - inversion Ec; subst. eapply NoDup_app_disj; [exact ND|exact Hx2|]. eapply in_concat_nth; eauto.
    - inversion Ec'; subst. eapply NoDup_app_disj; [exact ND|exact Hx|]. eapply in_concat_nth; eauto.
    - eapply IH; [eapply NoDup_app_r; eauto|exact Ec|exact Ec'|lia]. }
  split.
  - split; simpl.
    + rewrite Hep.
      assert (F := r_ep _ _ _ R).
      apply Forall2_nth_intro.
      * rewrite !length_upd. eapply Forall2_length'; eauto.
      * intros h' x c'. rewrite !nth_error_upd.
        destruct (Nat.eqb_spec h h') as [<-|Hh]; cbn [andb].
        -- rewrite (proj2 (Nat.ltb_lt _ _) (nth_error_lt _ _ _ Ee)), (proj2 (Nat.ltb_lt _ _) (nth_error_lt _ _ _ Ec)).
           intros A1 A2; inversion A1; inversion A2; subst; auto.
        -- intros A1 A2. destruct (Forall2_nth_l _ _ _ _ _ F A1) as (y & A3 & A4).
           rewrite A2 in A3; inversion A3; subst. apply Hother; auto. eapply Hdis; eauto.
    + econstructor; [apply nth_error_upd_eq; rewrite Hlen; eauto using nth_error_lt|].
      apply Hother; [apply (r_fl _ _ _ R)|]. intros x Hx Hx'.
      eapply NoDup_app_disj; [exact ND| |exact Hx]. eapply in_concat_nth; eauto.
      rewrite in_app_iff in *; simpl in *; tauto.
    + now rewrite (r_fls _ _ _ R).
    + rewrite length_upd, Hlen. rewrite <- (r_perm _ _ _ R), Pc. simpl. symmetry; apply Permutation_middle.
    + intros h' c' j dj nj Ec' Hj Ej.
      assert (Hji : i <> j).
      { intros <-. apply Hni. eapply in_concat_nth; eauto. }
      rewrite nth_error_upd_neq in Ej by auto.
      assert (HL : length ep' = length (entry_points t)) by (rewrite Hep; apply length_upd).
      rewrite HL.
      assert (Ej' := Hcs j). rewrite Ej in Ej'; simpl in Ej'.
      destruct (nth_error (chains t) j) as [[dj' nj']|] eqn:Ejt; simpl in Ej'; [|discriminate].
      inversion Ej'; subst dj'.
      rewrite nth_error_upd in Ec'. destruct (Nat.eqb_spec h h') as [<-|Hh]; cbn [andb] in Ec'.
      * rewrite (proj2 (Nat.ltb_lt _ _) (nth_error_lt _ _ _ Ec)) in Ec'. inversion Ec'; subst c'.
        eapply (r_hash _ _ _ R); [exact Ec| |exact Ejt]. rewrite in_app_iff in *; simpl; tauto.
      * eapply (r_hash _ _ _ R); eauto.
    + intros H0. exfalso. rewrite H0 in Ee'. destruct h; discriminate.
    + apply (r_tcl _ _ _ R).
  - rewrite (live_of_perm _ _ _ Pc), (live_of_cons _ _ _ _ _ Ei). constructor.
    rewrite (live_of_ext (chains t) (upd cs' i (default, free_list t))); [reflexivity|].
    intros j Hj. rewrite nth_error_upd_neq; auto. intros <-; auto.
Qed.

(** *** remove *)
Lemma remove_loop_spec t k must prev l fuel :
  path (chains t) (Some prev) (prev :: l) -> length l < fuel ->
  (remove_loop equal default fuel t k must prev = (if must then Abort else Ok (t, false))
   /\ forall j d n, In j l -> nth_error (chains t) j = Some (d, n) -> equal k d = false)
  \/ (exists la p i lb d n pd, prev :: l = la ++ p :: i :: lb
       /\ nth_error (chains t) i = Some (d, n) /\ equal k d = true
       /\ nth_error (chains t) p = Some (pd, Some i)
       /\ remove_loop equal default fuel t k must prev =
          Ok (unlinked t (upd (chains t) p (pd, n)) (entry_points t) i, true)).
Proof. clear hashfn.
  revert prev l; induction fuel as [|fuel IH]; intros prev l P F; [lia|].
  apply path_head in P. destruct P as (pd & o & _ & Ep & P).
  cbn [remove_loop]. rewrite (get_Some _ _ _ Ep); cbn [bind].
  destruct l as [|i l].
  - inversion P; subst. left; split; auto; simpl; tauto.
  - assert (P' := P). apply path_head in P'. destruct P' as (d & n & -> & Ei & P').
    rewrite (get_Some _ _ _ Ei); cbn [bind].
    destruct (equal k d) eqn:Eq.
    + right. exists [], prev, i, l, d, n, pd; simpl; repeat split; auto.
      rewrite put_ok by eauto using nth_error_lt. cbn [bind]. unfold to_free_list.
      rewrite put_ok by (rewrite length_upd; eauto using nth_error_lt). reflexivity.
    + simpl in F. destruct (IH i l P) as [(H1 & H2)|(la & p & i' & lb & d' & n' & pd' & E & H)]; [lia| |].
      * left; split; auto. intros j dj nj [<-|Hj] Ej; [congruence|eauto].
      * right. exists (prev :: la), p, i', lb, d', n', pd'. rewrite E; auto.
Qed.

Definition keeps_size (t t' : ht) : Prop :=
  length (entry_points t') = length (entry_points t)
  /\ length (chains t') = length (chains t)
  /\ tcl_num t' = tcl_num t /\ tcl_den t' = tcl_den t.

Lemma unlinked_keeps t h i n l1 cs' ep' :
  is_unlink t h i n l1 cs' ep' -> keeps_size t (unlinked t cs' ep' i).
Proof. intros U; unfold keeps_size, unlinked; simpl. rewrite length_upd.
  destruct U as [(-> & -> & ->)|(l1' & p & pd & -> & Ep & -> & ->)]; rewrite ?length_upd; auto. Qed.

Lemma ht_remove_spec t l k must : eq_hash -> Live t l ->
  (exists t' l' i d, ht_remove hashfn equal default t k must = Ok (t', true)
      /\ Live t' l' /\ Permutation l ((i, d) :: l') /\ equal k d = true /\ keeps_size t t')
  \/ (ht_remove hashfn equal default t k must = (if must then Abort else Ok (t, false))
      /\ forall i d, In (i, d) l -> equal k d = false).
Proof.
  intros EH (css & fl & R & ->). unfold ht_remove.
  destruct (Nat.eqb_spec (length (entry_points t)) 0) as [H0|H0].
  - right; split; auto. destruct (ep_nil_live _ _ _ R H0) as [-> _]. simpl; tauto.
  - destruct (chain_at t css fl k R) as (e & c & Ee & Ec & P); [lia|].
    set (h := bucket_of (length (entry_points t)) k) in *.
    rewrite (get_Some _ _ _ Ee); cbn [bind].
    assert (HL := rep_len_chain _ _ _ _ _ R Ec).
    assert (Habs : (forall j d n, In j c -> nth_error (chains t) j = Some (d, n) -> equal k d = false) ->
                   forall i d, In (i, d) (live_of (chains t) (concat css)) -> equal k d = false).
    { intros Hn i d Hin. apply in_live_of in Hin; destruct Hin as (Hi & Hn').
      destruct (equal k d) eqn:Eq; auto.
      destruct (in_concat_ex _ _ Hi) as (h' & c' & Ec' & Hi').
      assert (h' = h) by (eapply not_in_other; eauto). subst h'.
      rewrite Ec in Ec'; inversion Ec'; subst. destruct Hn' as [n E].
      rewrite (Hn _ _ _ Hi' E) in Eq; discriminate. }
    assert (Hfin : forall l1 i l2 d n cs' ep', c = l1 ++ i :: l2 -> nth_error (chains t) i = Some (d, n) ->
        equal k d = true -> is_unlink t h i n l1 cs' ep' ->
        exists t' l' i0 d0, Ok (unlinked t cs' ep' i, true) = Ok (t', true) /\ Live t' l' /\
          Permutation (live_of (chains t) (concat css)) ((i0, d0) :: l') /\ equal k d0 = true /\ keeps_size t t').
    { intros l1 i l2 d n cs' ep' -> Ei Eq U.
      destruct (unlink_spec _ _ _ _ _ _ _ _ _ _ _ R Ec Ei U) as (R' & Pm).
      do 2 eexists; exists i, d. split; [reflexivity|]. split; [do 2 eexists; split; [exact R'|reflexivity]|].
      split; [exact Pm|]. split; auto. eapply unlinked_keeps; eauto. }
    destruct e as [loc|].
    + destruct c as [|loc' c']; [inversion P|]. assert (P0 := P).
      apply path_head in P. destruct P as (d & n & E1 & El & P). inversion E1; subst loc'.
      rewrite (get_Some _ _ _ El); cbn [bind].
      destruct (equal k d) eqn:Eq.
      * rewrite put_ok by eauto using nth_error_lt; cbn [bind]. unfold to_free_list.
        rewrite put_ok by eauto using nth_error_lt; cbn [bind].
        left. apply (Hfin [] loc c' d n); auto. left; auto.
      * destruct (remove_loop_spec t k must loc c' (fuel_of t) P0) as [(H1 & H2)|(la & p & i & lb & d' & n' & pd & E & Ei & Eq' & Ep & H1)].
        { unfold fuel_of; simpl in HL; lia. }
        -- right; split; auto. apply Habs. intros j dj nj [<-|Hj] Ej; [congruence|eauto].
        -- rewrite H1. left. apply (Hfin (la ++ [p]) i lb d' n'); auto.
           ++ rewrite E, <- app_assoc; reflexivity.
           ++ right; eauto 8.
    + right; split; auto. inversion P; subst. apply Habs; simpl; tauto.
Qed.

(** *** erase *)
Lemma find_prev_spec cs target l1 l2 o fuel prev :
  path cs o (l1 ++ target :: l2) -> ~ In target l1 -> length l1 < fuel ->
  find_prev fuel cs target prev o =
  Ok (match l1 with [] => prev | _ => Some (last l1 0) end).
Proof. clear hashfn equal default.
  revert o fuel prev; induction l1 as [|x l1 IH]; intros o fuel prev P Hn F; (destruct fuel as [|fuel]; simpl in F; [lia|]).
  - apply path_head in P. destruct P as (d & n & -> & E & P). simpl. now rewrite Nat.eqb_refl.
  - simpl in P. apply path_head in P. destruct P as (d & n & -> & E & P). cbn [find_prev].
    destruct (Nat.eqb_spec x target); [exfalso; apply Hn; simpl; auto|].
    rewrite (get_Some _ _ _ E); cbn [bind]. rewrite (IH n fuel (Some x) P); [|simpl in Hn; tauto|lia].
    destruct l1; reflexivity.
Qed.

Lemma ht_erase_rep t css fl c l1 i l2 d n : rep t css fl ->
  nth_error css c = Some (l1 ++ i :: l2) -> nth_error (chains t) i = Some (d, n) ->
  exists t', ht_erase default t (mk_iter c (Some i)) = Ok t'
    /\ rep t' (upd css c (l1 ++ l2)) (i :: fl) /\ keeps_size t t'
    /\ Permutation (live_of (chains t) (concat css))
                   ((i, d) :: live_of (chains t') (concat (upd css c (l1 ++ l2))))
    /\ (forall j, j <> i -> option_map fst (nth_error (chains t') j) = option_map fst (nth_error (chains t) j))
    /\ (forall h, h <> c -> nth_error (entry_points t') h = nth_error (entry_points t) h).
Proof.
  intros R Ec Ei. unfold ht_erase; cbn [chain_loc cur_chain].
  rewrite (get_Some _ _ _ Ei); cbn [bind].
  destruct (Forall2_nth_r _ _ _ _ _ (r_ep _ _ _ R) Ec) as (e & Ee & P).
  rewrite (get_Some _ _ _ Ee); cbn [bind].
  assert (NDc := rep_nodup_chain _ _ _ _ _ R Ec).
  assert (HL := rep_len_chain _ _ _ _ _ R Ec). rewrite app_length in HL; simpl in HL.
  rewrite (find_prev_spec _ _ _ _ _ _ _ P).
  2:{ intros Hi; apply (NoDup_remove_2 _ _ _ NDc), in_or_app; auto. }
  2:{ unfold fuel_of; lia. }
  cbn [bind].
  assert (Hcases : l1 = [] \/ exists l1' p, l1 = l1' ++ [p]).
  { destruct (rev l1) as [|p r] eqn:Er; [left|right].
    - now rewrite <- (rev_involutive l1), Er.
    - exists (rev r), p. now rewrite <- (rev_involutive l1), Er. }
  destruct Hcases as [->|(l1' & p & ->)].
  - rewrite put_ok by eauto using nth_error_lt; cbn [bind]. unfold to_free_list.
    rewrite put_ok by eauto using nth_error_lt; cbn [bind].
    assert (U : is_unlink t c i n [] (chains t) (upd (entry_points t) c n)) by (left; auto).
    destruct (unlink_spec _ _ _ _ _ _ _ _ _ _ _ R Ec Ei U) as (R' & Pm).
    eexists; split; [reflexivity|]. split; [exact R'|]. split; [eapply unlinked_keeps; eauto|]. split; [exact Pm|].
    split; simpl.
    + intros j Hj. rewrite nth_error_upd_neq; auto.
    + intros h Hh. rewrite nth_error_upd_neq; auto.
  - assert (Hm : match l1' ++ [p] with [] => @None nat | _ => Some (last (l1' ++ [p]) 0) end = Some p).
    { rewrite last_last. destruct l1'; reflexivity. }
    rewrite Hm.
    rewrite <- app_assoc in P, NDc; simpl in P, NDc.
    destruct (path_unlink _ _ _ _ _ _ P NDc) as (pd & d' & n' & Ep & Ei' & _).
    rewrite (get_Some _ _ _ Ep); cbn [bind].
    rewrite put_ok by eauto using nth_error_lt; cbn [bind]. unfold to_free_list.
    rewrite put_ok by (rewrite length_upd; eauto using nth_error_lt); cbn [bind].
    assert (U : is_unlink t c i n (l1' ++ [p]) (upd (chains t) p (pd, n)) (entry_points t)) by (right; eauto 8).
    destruct (unlink_spec _ _ _ _ _ _ _ _ _ _ _ R Ec Ei U) as (R' & Pm).
    eexists; split; [reflexivity|]. split; [exact R'|]. split; [eapply unlinked_keeps; eauto|]. split; [exact Pm|].
    split; simpl; auto.
    intros j Hj. rewrite nth_error_upd_neq by auto. rewrite nth_error_upd.
    destruct (Nat.eqb_spec p j) as [<-|]; simpl; auto. rewrite Ep; simpl. destruct (p <? _); auto.
Qed.

(** *** Adding *)
Definition linked (sz : nat) (cs : list cell) (ep : list (option nat)) (css : list (list nat)) : Prop :=
  Forall2 (path cs) ep css /\ length ep = sz /\
  forall h c i d n, nth_error css h = Some c -> In i c -> nth_error cs i = Some (d, n) -> bucket_of sz d = h.

Lemma linked_add sz cs ep css cs' loc d e :
  linked sz cs ep css -> 0 < sz -> ~ In loc (concat css) ->
  nth_error ep (bucket_of sz d) = Some e ->
  (forall j, In j (concat css) -> nth_error cs' j = nth_error cs j) ->
  nth_error cs' loc = Some (d, e) ->
  exists css', linked sz cs' (upd ep (bucket_of sz d) (Some loc)) css'
    /\ Permutation (concat css') (loc :: concat css).
Proof.
  intros (F & Hsz & HH) Hs Hn Ee Hj El.
  set (h := bucket_of sz d) in *.
  destruct (Forall2_nth_l _ _ _ _ _ F Ee) as (c & Ec & P).
  exists (upd css h (loc :: c)). split; [split; [|split]|].
  - apply Forall2_upd.
    + eapply Forall2_impl_in; [|exact F]. intros o l _ Hl Pl. eapply path_ext; [|exact Pl].
      intros j Hjl. rewrite Hj; auto. apply in_concat; eauto.
    + econstructor; [exact El|]. eapply path_ext; [|exact P].
      intros j Hjl. rewrite Hj; auto. eapply in_concat_nth; eauto.
  - now rewrite length_upd.
  - intros h' c' i d' n' Ec' Hi Ei. rewrite nth_error_upd in Ec'.
    destruct (Nat.eqb_spec h h') as [<-|Hh]; cbn [andb] in Ec'.
    + rewrite (proj2 (Nat.ltb_lt _ _) (nth_error_lt _ _ _ Ec)) in Ec'. inversion Ec'; subst c'.
      destruct Hi as [<-|Hi].
      * rewrite El in Ei; inversion Ei; subst; reflexivity.
      * rewrite Hj in Ei by (eapply in_concat_nth; eauto). eapply HH; eauto.
    + rewrite Hj in Ei by (eapply in_concat_nth; eauto). eapply HH; eauto.
  - destruct (concat_upd_perm css h c (loc :: c) Ec) as (r & P1 & P2). rewrite P2, P1. reflexivity.
Qed.

Lemma relink_all_spec sz : 0 < sz -> forall k m cs ep css,
  linked sz cs ep css -> Permutation (concat css) (seq 0 m) -> m + k = length cs ->
  exists cs' ep' css', relink_all hashfn (seq m k) cs ep sz = Ok (cs', ep')
    /\ linked sz cs' ep' css' /\ Permutation (concat css') (seq 0 (m + k))
    /\ length cs' = length cs
    /\ (forall j, option_map fst (nth_error cs' j) = option_map fst (nth_error cs j)).
Proof.
  intros Hs; induction k as [|k IH]; intros m cs ep css L Pm Hm.
  - exists cs, ep, css. rewrite Nat.add_0_r. simpl; auto.
  - cbn [seq relink_all]. unfold relink.
    destruct (get_lt cs m) as ([d n] & Em & G); [lia|]. rewrite G; cbn [bind].
    assert (Lep : length ep = sz) by apply L.
    destruct (get_lt ep (bucket_of sz d)) as (e & Ee & G'); [rewrite Lep; now apply bucket_lt|].
    rewrite G'; cbn [bind]. rewrite put_ok by lia; cbn [bind].
    rewrite put_ok by (rewrite Lep; now apply bucket_lt); cbn [bind].
    assert (Hn : ~ In m (concat css)).
    { intros Hi. apply (Permutation_in _ Pm), in_seq in Hi. lia. }
    destruct (linked_add sz cs ep css (upd cs m (d, e)) m d e L Hs Hn Ee) as (css' & L' & P').
    { intros j Hj. apply nth_error_upd_neq. intros ->; auto. }
    { apply nth_error_upd_eq; lia. }
    destruct (IH (S m) _ _ _ L') as (cs2 & ep2 & css2 & E2 & L2 & P2 & Len2 & F2).
    { rewrite P', Pm. rewrite seq_S; simpl. apply Permutation_cons_append. }
    { rewrite length_upd; lia. }
    exists cs2, ep2, css2. split; [exact E2|]. split; [exact L2|]. split.
    { now replace (m + S k) with (S m + k) by lia. }
    split; [now rewrite Len2, length_upd|].
    intros j. rewrite F2, nth_error_upd. destruct (Nat.eqb_spec m j) as [<-|]; simpl; auto.
    rewrite Em. destruct (m <? _); auto.
Qed.

Lemma Forall2_repeat {A B} (P : A -> B -> Prop) x y n : P x y -> Forall2 P (repeat x n) (repeat y n).
Proof. intros H; induction n; simpl; constructor; auto. Qed.
Lemma concat_repeat_nil {A} n : concat (repeat (@nil A) n) = [].
Proof. induction n; simpl; auto. Qed.

Lemma resize_spec t css : rep t css [] -> free_list t = None ->
  (exists t' css', resizeHashTable hashfn t = Ok t' /\ rep t' css' [] /\ free_list t' = None
     /\ 0 < length (entry_points t')
     /\ Permutation (live_of (chains t') (concat css')) (live_of (chains t) (concat css))
     /\ length (chains t') = length (chains t) /\ tcl_num t' = tcl_num t /\ tcl_den t' = tcl_den t)
  \/ (resizeHashTable hashfn t = Abort /\ (max_prime <= N.of_nat (length (entry_points t)))%N).
Proof.
  intros R Hf. unfold resizeHashTable. rewrite Hf.
  rewrite <- (r_fls _ _ _ R); cbn [length Nat.eqb andb invariant bind].
  destruct (scan_gt (N.of_nat (length (entry_points t)))) as [(p & E & Hp)|(E & Hp)]; rewrite E; cbn [bind]; [left|right; auto].
  set (sz := N.to_nat p). assert (Hs : 0 < sz) by lia.
  set (cs0 := map (fun dn : cell => (fst dn, None)) (chains t)).
  destruct (relink_all_spec sz Hs (length (chains t)) 0 cs0 (repeat None sz) (repeat [] sz)) as (cs' & ep' & css' & E' & L' & P' & Len' & F').
  - split; [apply Forall2_repeat; constructor|]. split; [apply repeat_length|].
    intros h c i d n Ec Hi. apply nth_error_In, repeat_spec in Ec. subst; destruct Hi.
  - rewrite concat_repeat_nil. reflexivity.
  - unfold cs0; rewrite map_length; reflexivity.
  - rewrite E'; cbn [bind]. assert (Lc : length cs' = length (chains t)) by (rewrite Len'; apply map_length).
    destruct L' as (L1 & L2 & L3).
    eexists; exists css'. split; [reflexivity|]. cbn [chains entry_points free_list tcl_num tcl_den].
    split; [split; cbn [chains entry_points free_list free_list_size tcl_num tcl_den]|].
    + exact L1.
    + constructor.
    + reflexivity.
    + rewrite app_nil_r, Lc. exact P'.
    + rewrite L2. exact L3.
    + intros ->. simpl in L2; lia.
    + apply (r_tcl _ _ _ R).
    + split; auto. split; [lia|]. split; [|auto].
      assert (P2 := r_perm _ _ _ R). rewrite app_nil_r in P2. simpl in P'. rewrite <- P2 in P'.
      rewrite (live_of_perm _ _ _ P'). rewrite (live_of_ext (chains t) cs'); [reflexivity|].
      intros j _. rewrite F'. unfold cs0. rewrite nth_error_map.
      destruct (nth_error (chains t) j) as [[]|]; reflexivity.
Qed.

Definition table_full (t : ht) : Prop :=
  (N.of_nat (tcl_num t) * max_prime <= N.of_nat (length (chains t)) * N.of_nat (tcl_den t))%N.

Lemma rep_linked t css fl : rep t css fl -> linked (length (entry_points t)) (chains t) (entry_points t) css.
Proof. intros R; split; [apply (r_ep _ _ _ R)|]. split; auto. apply (r_hash _ _ _ R). Qed.

Lemma internalAdd_spec t l d : Live t l ->
  (exists t' l' i, internalAdd hashfn t d = Ok (t', i) /\ Live t' l'
     /\ Permutation l' ((i, d) :: l)
     /\ length (chains t) <= length (chains t') <= S (length (chains t))
     /\ 0 < length (chains t')
     /\ tcl_num t' = tcl_num t /\ tcl_den t' = tcl_den t)
  \/ (internalAdd hashfn t d = Abort /\ table_full t).
Proof.
  intros (css & fl & R & ->). unfold internalAdd.
  destruct (free_list t) as [loc|] eqn:Hf.
  - cbn [bind].
    assert (Pf := r_fl _ _ _ R). rewrite Hf in Pf.
    inversion Pf as [|? d0 n fl' E0 Pf']; subst.
    assert (Hep : 0 < length (entry_points t)).
    { destruct (entry_points t) eqn:Ee; simpl; [|lia].
      apply nth_error_lt in E0. rewrite (r_ne _ _ _ R Ee) in E0. simpl in E0; lia. }
    rewrite (proj2 (Nat.ltb_lt _ _) Hep); cbn [invariant bind].
    destruct (get_lt (entry_points t) (bucket_of (length (entry_points t)) d)) as (e & Ee & G); [now apply bucket_lt|].
    rewrite G; cbn [bind]. rewrite Hf, (get_Some _ _ _ E0); cbn [bind].
    rewrite put_ok by eauto using nth_error_lt; cbn [bind].
    rewrite put_ok by eauto using nth_error_lt; cbn [bind].
    assert (ND := rep_nodup _ _ _ R).
    assert (Hn : ~ In loc (concat css)).
    { intros Hi; eapply NoDup_app_disj; [exact ND|exact Hi|simpl; auto]. }
    assert (Hnf : ~ In loc fl').
    { apply NoDup_app_r in ND. now inversion ND. }
    destruct (linked_add _ _ _ _ (upd (chains t) loc (d, e)) loc d e (rep_linked _ _ _ R) Hep Hn Ee) as (css' & (L1 & L2 & L3) & P').
    { intros j Hj. apply nth_error_upd_neq. intros ->; auto. }
    { apply nth_error_upd_eq; eauto using nth_error_lt. }
    left. do 2 eexists; exists loc. split; [reflexivity|].
    cbn [chains entry_points free_list free_list_size tcl_num tcl_den].
    split; [do 2 eexists; split; [|reflexivity]; split; cbn [chains entry_points free_list free_list_size tcl_num tcl_den]|].
    + exact L1.
    + apply path_upd; eauto.
    + assert (H := r_fls _ _ _ R). simpl in H. lia.
    + rewrite length_upd, <- (r_perm _ _ _ R), P'. simpl. apply Permutation_middle.
    + rewrite length_upd. exact L3.
    + intros H0. apply (f_equal (@length _)) in H0. rewrite length_upd in H0; simpl in H0; lia.
    + apply (r_tcl _ _ _ R).
    + rewrite length_upd. apply nth_error_lt in E0. split; [|repeat split; lia].
      rewrite (live_of_perm _ _ _ P').
      rewrite (live_of_cons _ loc _ d e) by (apply nth_error_upd_eq; auto).
      constructor. rewrite (live_of_ext (chains t) (upd (chains t) loc (d, e))); [reflexivity|].
      intros j Hj. rewrite nth_error_upd_neq; auto. intros ->; auto.
  - assert (fl = []). { assert (Pf := r_fl _ _ _ R). rewrite Hf in Pf. now inversion Pf. } subst fl.
    assert (Hmain : forall t1 css1, rep t1 css1 [] -> free_list t1 = None -> 0 < length (entry_points t1) ->
      Permutation (live_of (chains t1) (concat css1)) (live_of (chains t) (concat css)) ->
      length (chains t1) = length (chains t) -> tcl_num t1 = tcl_num t -> tcl_den t1 = tcl_den t ->
      exists t' l' i,
        (let! _ := invariant (0 <? length (entry_points t1)) in
         let! e := get (entry_points t1) (bucket_of (length (entry_points t1)) d) in
         match free_list t1 with
         | Some loc =>
           let! (_, n) := get (chains t1) loc in
           let! cs := put (chains t1) loc (d, e) in
           let! ep := put (entry_points t1) (bucket_of (length (entry_points t1)) d) (Some loc) in
           Ok (mk_ht n (free_list_size t1 - 1) cs ep (tcl_num t1) (tcl_den t1), loc)
         | None =>
           let! ep := put (entry_points t1) (bucket_of (length (entry_points t1)) d) (Some (length (chains t1))) in
           Ok (mk_ht None (free_list_size t1) (chains t1 ++ [(d, e)]) ep (tcl_num t1) (tcl_den t1), length (chains t1))
         end) = Ok (t', i) /\ Live t' l' /\ Permutation l' ((i, d) :: live_of (chains t) (concat css))
        /\ length (chains t) <= length (chains t') <= S (length (chains t)) /\ 0 < length (chains t')
        /\ tcl_num t' = tcl_num t /\ tcl_den t' = tcl_den t).
    { intros t1 css1 R1 Hf1 Hep Pm Hl Hnum Hden.
      rewrite (proj2 (Nat.ltb_lt _ _) Hep); cbn [invariant bind].
      destruct (get_lt (entry_points t1) (bucket_of (length (entry_points t1)) d)) as (e & Ee & G); [now apply bucket_lt|].
      rewrite G; cbn [bind]. rewrite Hf1.
      rewrite put_ok by eauto using nth_error_lt; cbn [bind].
      set (loc := length (chains t1)).
      assert (Hn : ~ In loc (concat css1)).
      { intros Hi. assert (loc < length (chains t1)); [|unfold loc in *; lia].
        eapply rep_in_lt; eauto. apply in_or_app; auto. }
      destruct (linked_add _ _ _ _ (chains t1 ++ [(d, e)]) loc d e (rep_linked _ _ _ R1) Hep Hn Ee) as (css' & (L1 & L2 & L3) & P').
      { intros j Hj. apply nth_error_app1. eapply rep_in_lt; eauto. apply in_or_app; auto. }
      { unfold loc. rewrite nth_error_app2 by lia. now rewrite Nat.sub_diag. }
      do 2 eexists; exists loc. split; [reflexivity|].
      cbn [chains entry_points free_list free_list_size tcl_num tcl_den].
      split; [do 2 eexists; split; [|reflexivity]; split; cbn [chains entry_points free_list free_list_size tcl_num tcl_den]|].
      + exact L1.
      + constructor.
      + apply (r_fls _ _ _ R1).
      + rewrite app_nil_r, P', app_length. simpl.
        assert (P2 := r_perm _ _ _ R1). rewrite app_nil_r in P2. rewrite P2.
        rewrite Nat.add_1_r, seq_S. apply Permutation_cons_append.
      + rewrite length_upd. exact L3.
      + intros H0. apply (f_equal (@length _)) in H0. rewrite length_upd in H0; simpl in H0; lia.
      + apply (r_tcl _ _ _ R1).
      + rewrite app_length; simpl. split; [|repeat split; try lia].
        rewrite (live_of_perm _ _ _ P').
        rewrite (live_of_cons _ loc _ d e).
        2:{ unfold loc. rewrite nth_error_app2 by lia. now rewrite Nat.sub_diag. }
        constructor. rewrite (live_of_ext (chains t1) (chains t1 ++ [(d, e)])); [exact Pm|].
        intros j Hj. f_equal. apply nth_error_app1. eapply rep_in_lt; eauto. apply in_or_app; auto. }
    destruct (overfull t) eqn:Hov.
    + destruct (resize_spec t css R Hf) as [(t1 & css1 & E1 & R1 & Hf1 & Hep1 & Pm1 & Hl1 & Hn1 & Hd1)|(E1 & Hmax)].
      * rewrite E1. cbn [bind]. left. eapply Hmain; eauto.
      * rewrite E1. cbn [bind]. right; split; auto. unfold table_full.
        unfold overfull in Hov. apply N.leb_le in Hov.
        etransitivity; [|exact Hov]. apply N.mul_le_mono_l. exact Hmax.
    + cbn [bind]. left. eapply Hmain; eauto.
      destruct (entry_points t) eqn:Ee; simpl; [|lia]. exfalso.
      unfold overfull in Hov. rewrite Ee, (r_ne _ _ _ R Ee) in Hov. simpl in Hov.
      rewrite N.mul_0_r in Hov. discriminate.
Qed.

(** *** Construction, clear, reserve, size, verifyFreeListSize *)
Lemma ht_new_spec num den : 0 < num -> 0 < den ->
  @ht_new D num den = Ok (mk_ht None 0 [] [] num den) /\ Live (mk_ht None 0 [] [] num den) [].
Proof.
  intros H1 H2. unfold ht_new.
  rewrite (proj2 (Nat.ltb_lt _ _) H1), (proj2 (Nat.ltb_lt _ _) H2). split; auto.
  exists [], []. split; [split; simpl; auto|reflexivity].
  - constructor.
  - intros [|] ? ? ? ? H; discriminate.
Qed.

Lemma empty_rep ep num den : 0 < num -> 0 < den -> Forall (eq None) ep ->
  Live (mk_ht None 0 [] ep num den) [].
Proof.
  intros H1 H2 F. exists (map (fun _ => []) ep), [].
  assert (C : concat (map (fun _ : option nat => @nil nat) ep) = []).
  { clear; induction ep; simpl; auto. }
  split; [|simpl; rewrite C; reflexivity]. split; simpl; auto.
  - induction F; simpl; constructor; auto. subst; constructor.
  - constructor.
  - rewrite C; constructor.
  - intros h c i d n Ec Hi. exfalso. assert (Hc : In i (concat (map (fun _ : option nat => @nil nat) ep))) by (eapply in_concat_nth; eauto).
    rewrite C in Hc; destruct Hc.
Qed.

Lemma ht_clear_spec t l : Live t l -> Live (ht_clear t) [].
Proof. intros (css & fl & R & _). unfold ht_clear. apply empty_rep; try apply (r_tcl _ _ _ R).
  apply Forall_forall. intros x Hx. apply in_map_iff in Hx. now destruct Hx as (_ & <- & _). Qed.

Lemma Live_tcl t l : Live t l -> 0 < tcl_num t /\ 0 < tcl_den t.
Proof. intros (css & fl & R & _); apply (r_tcl _ _ _ R). Qed.

Lemma Live_size t l : Live t l -> ht_size t = length l /\ free_list_size t <= length (chains t).
Proof. intros (css & fl & R & ->). unfold ht_size. assert (L := rep_len _ _ _ R).
  rewrite <- (r_fls _ _ _ R). assert (X := f_equal (@length _) (rep_live_fst _ _ _ R)).
  rewrite map_length in X. lia. Qed.

Lemma ht_verify_spec t l : Live t l -> ht_verifyFreeListSize t = Ok true.
Proof. intros (css & fl & R & ->). unfold ht_verifyFreeListSize.
  assert (L := rep_len _ _ _ R).
  rewrite (chain_walk_spec _ _ _ _ (r_fl _ _ _ R)) by (unfold fuel_of; lia). cbn [bind].
  rewrite (r_fls _ _ _ R), Nat.eqb_refl. reflexivity. Qed.

Definition reserve_want (t : ht) (n : N) : N := (n * N.of_nat (tcl_den t) / N.of_nat (tcl_num t))%N.

Lemma ht_reserve_spec t l n : Live t l ->
  (exists t', ht_reserve t n = Ok t' /\ l = [] /\ Live t' [] /\ chains t = [] /\ chains t' = []
     /\ tcl_num t' = tcl_num t /\ tcl_den t' = tcl_den t /\ (reserve_want t n <= max_prime)%N)
  \/ (ht_reserve t n = Abort /\ (chains t <> [] \/ (max_prime < reserve_want t n)%N)).
Proof.
  intros (css & fl & R & ->). unfold ht_reserve.
  destruct (chains t) as [|x r] eqn:Ec; cbn [length Nat.eqb invariant bind].
  2:{ right; split; auto; left; discriminate. }
  fold (reserve_want t n).
  destruct (scan_ge (reserve_want t n)) as [(p & E & Hp1 & Hp2 & Hp3)|(E & Hp)]; rewrite E; cbn [bind].
  - left. eexists; split; [reflexivity|].
    assert (L := rep_len _ _ _ R). rewrite Ec in L; simpl in L.
    assert (Hcss : concat css = []) by (destruct (concat css); simpl in L; auto; lia).
    assert (Hfl : fl = []) by (destruct fl; simpl in L; auto; lia). subst fl.
    assert (Hf : free_list t = None) by (assert (Pf := r_fl _ _ _ R); now inversion Pf).
    assert (Hfs := r_fls _ _ _ R). simpl in Hfs.
    rewrite Hcss. split; auto. cbn [chains tcl_num tcl_den]. split; [|auto].
    rewrite Hf, <- Hfs. apply empty_rep; try apply (r_tcl _ _ _ R).
    apply Forall_app; split.
    + apply Forall_forall. intros o Ho.
      assert (Ho' : In o (entry_points t)).
      { rewrite <- (firstn_skipn (N.to_nat p) (entry_points t)). apply in_or_app; auto. }
      apply In_nth_error in Ho'. destruct Ho' as [h Eh].
      destruct (Forall2_nth_l _ _ _ _ _ (r_ep _ _ _ R) Eh) as (c & Ec' & P).
      destruct c as [|i c]; [now inversion P|].
      exfalso. assert (Hi : In i (concat css)) by (eapply in_concat_nth; eauto; simpl; auto).
      rewrite Hcss in Hi; destruct Hi.
    + apply Forall_forall. intros o Ho. apply repeat_spec in Ho; auto.
  - right; split; auto.
Qed.

(** *** Iteration *)
Definition it_at (t : ht) (css : list (list nat)) (it : iter) (rem : list nat) : Prop :=
  (it = mk_iter (length (entry_points t)) None /\ rem = [])
  \/ (exists l0 i l, cur_chain it < length (entry_points t)
        /\ nth_error css (cur_chain it) = Some (l0 ++ i :: l) /\ chain_loc it = Some i
        /\ rem = i :: l ++ concat (skipn (S (cur_chain it)) css)).

Lemma skip_empty_spec t css fl : rep t css fl -> forall n c, c <= length (entry_points t) ->
  length (entry_points t) - c <= n ->
  let c' := skip_empty n (entry_points t) c in
  c <= c' <= length (entry_points t)
  /\ concat (skipn c css) = concat (skipn c' css)
  /\ nth_error (entry_points t) c' <> Some None.
Proof.
  intros R n; induction n as [|n IH]; intros c Hc Hn; cbn [skip_empty].
  - split; [lia|]. split; auto. rewrite (proj2 (nth_error_None _ _)) by lia. discriminate.
  - destruct (nth_error (entry_points t) c) as [[j|]|] eqn:Ec.
    + cbn zeta. split; [lia|]. split; auto. rewrite Ec; discriminate.
    + assert (c < length (entry_points t)) by eauto using nth_error_lt.
      destruct (IH (S c)) as (H1 & H2 & H3); [lia|lia|]. cbn zeta. split; [lia|]. split; auto.
      rewrite <- H2.
      destruct (Forall2_nth_l _ _ _ _ _ (r_ep _ _ _ R) Ec) as (x & Ex & P). inversion P; subst x.
      clear - Ex. revert c Ex. induction css as [|y css IH]; intros [|c] Ex; simpl in *; try discriminate.
      * inversion Ex; reflexivity.
      * apply IH; auto.
    + cbn zeta. split; [lia|]. split; auto. rewrite Ec; discriminate.
Qed.

Lemma skipn_concat_cons (css : list (list nat)) c x :
  nth_error css c = Some x -> concat (skipn c css) = x ++ concat (skipn (S c) css).
Proof. revert c; induction css as [|y css IH]; intros [|c] E; simpl in *; try discriminate.
  - inversion E; reflexivity.
  - now apply IH. Qed.

Lemma findNonempty_at t css fl c : rep t css fl -> c <= length (entry_points t) ->
  it_at t css (findNonemptyChain t (mk_iter c None)) (concat (skipn c css)).
Proof.
  intros R Hc. unfold findNonemptyChain; cbn [cur_chain chain_loc].
  destruct (skip_empty_spec t css fl R (length (entry_points t)) c Hc ltac:(lia)) as (H1 & H2 & H3).
  set (c' := skip_empty (length (entry_points t)) (entry_points t) c) in *.
  assert (Lc := Forall2_length' _ _ _ (r_ep _ _ _ R)).
  destruct (nth_error (entry_points t) c') as [[j|]|] eqn:Ec; [|congruence|].
  - right. destruct (Forall2_nth_l _ _ _ _ _ (r_ep _ _ _ R) Ec) as (x & Ex & P).
    inversion P as [|? d n l Ej P']; subst. exists [], j, l; cbn [cur_chain chain_loc].
    split; [eauto using nth_error_lt|]. split; auto. split; auto.
    rewrite H2, (skipn_concat_cons _ _ _ Ex). reflexivity.
  - left. apply nth_error_None in Ec. assert (c' = length (entry_points t)) by lia.
    split; [now f_equal|]. rewrite H2, skipn_all2 by lia. reflexivity.
Qed.

Lemma ht_begin_at t css fl : rep t css fl -> it_at t css (ht_begin t 0) (concat css).
Proof. intros R; apply (findNonempty_at t css fl 0 R); lia. Qed.

Lemma ht_end_eq (t : ht) : ht_end t = mk_iter (length (entry_points t)) None.
Proof. unfold ht_end, findNonemptyChain; cbn [cur_chain chain_loc].
  assert (E : skip_empty (length (entry_points t)) (entry_points t) (length (entry_points t)) = length (entry_points t)).
  { destruct (length (entry_points t)) eqn:E at 1; simpl; auto.
    rewrite (proj2 (nth_error_None _ _)); auto. }
  rewrite E, (proj2 (nth_error_None _ _)); auto. Qed.

Lemma it_eqb_end t css it rem : it_at t css it rem ->
  it_eqb it (ht_end t) = match rem with [] => true | _ => false end.
Proof. rewrite ht_end_eq. unfold it_eqb; intros [(-> & ->)|(l0 & i & l & H1 & H2 & H3 & ->)]; cbn [cur_chain chain_loc].
  - now rewrite Nat.eqb_refl.
  - rewrite H3; simpl. now rewrite andb_false_r. Qed.

Lemma it_step t css fl it i rem : rep t css fl -> it_at t css it (i :: rem) ->
  exists it' d n, nth_error (chains t) i = Some (d, n) /\ chain_loc it = Some i
    /\ it_deref t it = Ok d /\ it_increment t it = Ok it' /\ it_at t css it' rem
    /\ (exists l0 l, nth_error css (cur_chain it) = Some (l0 ++ i :: l)
         /\ rem = l ++ concat (skipn (S (cur_chain it)) css)
         /\ (l = [] -> cur_chain it < cur_chain it')
         /\ (l <> [] -> cur_chain it' = cur_chain it)).
Proof.
  intros R [(_ & H)|(l0 & i' & l & H1 & H2 & H3 & H4)]; [discriminate|].
  inversion H4; subst i' rem; clear H4.
  destruct (Forall2_nth_r _ _ _ _ _ (r_ep _ _ _ R) H2) as (e & Ee & P).
  apply path_suffix, path_head in P. destruct P as (d & n & _ & Ei & P).
  assert (Hi := nth_error_lt _ _ _ Ei).
  unfold it_deref, it_increment. rewrite H3, (proj2 (Nat.ltb_lt _ _) Hi), (get_Some _ _ _ Ei); cbn [bind].
  destruct l as [|j l].
  - inversion P; subst n. do 3 eexists. split; [exact Ei|]. split; [reflexivity|]. split; [reflexivity|]. split; [reflexivity|].
    split; [apply (findNonempty_at t css fl); auto|].
    exists l0, []. split; auto. split; auto. split; [intros _|congruence].
    destruct (skip_empty_spec t css fl R (length (entry_points t)) (S (cur_chain it)) ltac:(lia) ltac:(lia)) as (A1 & _ & _).
    unfold findNonemptyChain; cbn [cur_chain chain_loc].
    set (c' := skip_empty (length (entry_points t)) (entry_points t) (S (cur_chain it))) in *.
    destruct (nth_error (entry_points t) c'); cbn [cur_chain]; lia.
  - apply path_head in P. destruct P as (d' & n' & -> & Ej & P).
    do 3 eexists. split; [exact Ei|]. split; [reflexivity|]. split; [reflexivity|]. split; [reflexivity|].
    split.
    + right. exists (l0 ++ [i]), j, l; cbn [cur_chain chain_loc]. rewrite <- app_assoc; simpl; auto.
    + exists l0, (j :: l). split; auto. split; auto. split; [congruence|reflexivity].
Qed.

Lemma iter_loop_spec t css fl : rep t css fl -> forall rem it fuel, it_at t css it rem -> length rem < fuel ->
  iter_loop fuel t it = Ok (map snd (live_of (chains t) rem)).
Proof.
  intros R rem; induction rem as [|i rem IH]; intros it fuel A F.
  - destruct fuel; cbn [iter_loop]; rewrite (it_eqb_end _ _ _ _ A); reflexivity.
  - destruct fuel as [|fuel]; simpl in F; [lia|]. cbn [iter_loop]. rewrite (it_eqb_end _ _ _ _ A).
    destruct (it_step _ _ _ _ _ _ R A) as (it' & d & n & Ei & _ & E1 & E2 & A' & _).
    rewrite E1, E2; cbn [bind]. rewrite (IH it' fuel A') by lia. cbn [bind].
    rewrite (live_of_cons _ _ _ _ _ Ei). reflexivity.
Qed.

Lemma ht_iterate_spec t l : Live t l -> ht_iterate t = Ok (map snd l).
Proof. intros (css & fl & R & ->). unfold ht_iterate.
  apply (iter_loop_spec t css fl R); [apply (ht_begin_at t css fl R)|].
  assert (L := rep_len _ _ _ R). unfold fuel_of; lia. Qed.

(** *** erase while iterating *)
Lemma skipn_upd_gt {A} (l : list A) i x n : i < n -> skipn n (upd l i x) = skipn n l.
Proof. revert i n; induction l as [|y l IH]; intros [|i] [|n] H; simpl; auto; try lia. apply IH; lia. Qed.

Lemma it_at_erased t css fl t' it it' i rem l0 l :
  rep t css fl -> nth_error css (cur_chain it) = Some (l0 ++ i :: l) ->
  rem = l ++ concat (skipn (S (cur_chain it)) css) ->
  (l = [] -> cur_chain it < cur_chain it') -> (l <> [] -> cur_chain it' = cur_chain it) ->
  it_at t css it' rem -> keeps_size t t' -> ~ In i rem ->
  it_at t' (upd css (cur_chain it) (l0 ++ l)) it' rem.
Proof.
  intros R Ec Hrem Hl1 Hl2 A K Hni. destruct A as [(-> & ->)|(m0 & j & m & A1 & A2 & A3 & A4)].
  - left. destruct K as (K & _). now rewrite K.
  - right. destruct K as (K & _). rewrite K.
    destruct l as [|x l].
    + specialize (Hl1 eq_refl). exists m0, j, m. rewrite nth_error_upd_neq by lia.
      rewrite skipn_upd_gt by lia. auto.
    + specialize (Hl2 ltac:(discriminate)). rewrite Hl2 in *.
      rewrite Ec in A2. inversion A2 as [A2'].
      (* the iterator points at x, head of l *)
      simpl in Hrem. rewrite A4 in Hrem. inversion Hrem; subst j.
      exists l0, x, l. rewrite nth_error_upd_eq by eauto using nth_error_lt.
      rewrite skipn_upd_gt by lia. rewrite A4. auto.
Qed.

Lemma erase_if_loop_spec p : forall rem t css fl it fuel, rep t css fl -> it_at t css it rem ->
  NoDup rem -> incl rem (concat css) -> length rem < fuel ->
  exists t' css' fl', erase_if_loop default fuel p t it = Ok (map snd (live_of (chains t) rem), t')
    /\ rep t' css' fl' /\ keeps_size t t'
    /\ Permutation (live_of (chains t) (concat css))
         (filter (fun x => p (snd x)) (live_of (chains t) rem) ++ live_of (chains t') (concat css')).
Proof. clear equal.
  induction rem as [|i rem IH]; intros t css fl it fuel R A ND I F.
  - exists t, css, fl. split; [|split; [|split]]; auto.
    + destruct fuel; cbn [erase_if_loop]; rewrite (it_eqb_end _ _ _ _ A); reflexivity.
    + unfold keeps_size; auto.
  - destruct fuel as [|fuel]; simpl in F; [lia|]. cbn [erase_if_loop]. rewrite (it_eqb_end _ _ _ _ A).
    destruct (it_step _ _ _ _ _ _ R A) as (it' & d & n & Ei & Eloc & E1 & E2 & A' & l0 & l & Ec & Hrem & Hl1 & Hl2).
    rewrite E1, E2; cbn [bind]. rewrite (live_of_cons _ _ _ _ _ Ei). cbn [filter snd map].
    inversion ND as [|? ? Hni ND']; subst.
    destruct (p d) eqn:Ep.
    + destruct (ht_erase_rep t css fl (cur_chain it) l0 i l d n R Ec Ei) as (t1 & Ee & R1 & K1 & P1 & F1 & _).
      assert (Eit : it = mk_iter (cur_chain it) (Some i)) by (destruct it; simpl in *; congruence).
      assert (Ee2 : ht_erase default t it = Ok t1) by (rewrite Eit; exact Ee).
      rewrite Ee2; cbn [bind].
      set (css1 := upd css (cur_chain it) (l0 ++ l)) in *.
      set (rem := l ++ concat (skipn (S (cur_chain it)) css)) in *.
      assert (A1 : it_at t1 css1 it' rem) by (eapply it_at_erased; eauto).
      assert (Pc : Permutation (concat css) (i :: concat css1)).
      { destruct (concat_upd_perm css (cur_chain it) _ (l0 ++ l) Ec) as (r & Q1 & Q2).
        unfold css1. rewrite Q1, Q2, <- !app_assoc; simpl. symmetry; apply Permutation_middle. }
      assert (I1 : incl rem (concat css1)).
      { intros x Hx. assert (Hx' : In x (i :: concat css1)) by (apply (Permutation_in _ Pc), I; simpl; auto).
        destruct Hx' as [<-|]; [tauto|auto]. }
      destruct (IH t1 css1 (i :: fl) it' fuel R1 A1 ND' I1) as (t2 & css2 & fl2 & E3 & R2 & K2 & P2); [unfold rem in *; lia|].
      rewrite E3; cbn [bind]. exists t2, css2, fl2.
      assert (Hlv : live_of (chains t1) rem = live_of (chains t) rem).
      { apply live_of_ext. intros j Hj. apply F1. intros ->; auto. }
      rewrite Hlv in *. split; [reflexivity|]. split; auto. split.
      { unfold keeps_size in *; intuition congruence. }
      rewrite P1. simpl. constructor. exact P2.
    + cbn [bind].
      destruct (IH t css fl it' fuel R A' ND') as (t2 & css2 & fl2 & E3 & R2 & K2 & P2); [|lia|].
      { intros x Hx; apply I; simpl; auto. }
      rewrite E3; cbn [bind]. exists t2, css2, fl2. auto.
Qed.

Lemma ht_erase_if_spec p t l : Live t l ->
  exists t' l', ht_erase_if default p t = Ok (map snd l, t') /\ Live t' l' /\ keeps_size t t'
    /\ Permutation l (filter (fun x => p (snd x)) l ++ l').
Proof. intros (css & fl & R & ->). unfold ht_erase_if.
  destruct (erase_if_loop_spec p (concat css) t css fl (ht_begin t 0) (fuel_of t) R) as (t' & css' & fl' & E & R' & K & P).
  - apply (ht_begin_at t css fl R).
  - eapply NoDup_app_l, rep_nodup; eauto.
  - apply incl_refl.
  - assert (L := rep_len _ _ _ R). unfold fuel_of; lia.
  - exists t'; eexists; split; [exact E|]. split; [exists css', fl'; eauto|auto].
Qed.

(** *** find, then erase *)
Lemma ht_find_erase_spec t l k : eq_hash -> Live t l ->
  (exists it t' l' i d, ht_find hashfn equal t k = Ok it /\ it_eqb it (ht_end t) = false
      /\ it_deref t it = Ok d /\ ht_erase default t it = Ok t'
      /\ Live t' l' /\ Permutation l ((i, d) :: l') /\ equal k d = true /\ keeps_size t t')
  \/ (exists it, ht_find hashfn equal t k = Ok it /\ it_eqb it (ht_end t) = true
      /\ forall i d, In (i, d) l -> equal k d = false).
Proof.
  intros EH (css & fl & R & ->). unfold ht_find.
  assert (Eend : it_eqb (ht_end t) (ht_end t) = true).
  { rewrite ht_end_eq. unfold it_eqb; simpl. now rewrite Nat.eqb_refl. }
  destruct (Nat.eqb_spec (length (entry_points t)) 0) as [H0|H0].
  - right. exists (ht_end t). split; auto. split; auto.
    destruct (ep_nil_live _ _ _ R H0) as [-> _]. simpl; tauto.
  - destruct (chain_at t css fl k R) as (e & c & Ee & Ec & P); [lia|].
    set (h := bucket_of (length (entry_points t)) k) in *.
    rewrite (get_Some _ _ _ Ee); cbn [bind].
    assert (HL := rep_len_chain _ _ _ _ _ R Ec).
    destruct (chain_find_spec (equal k) _ _ _ (fuel_of t) P) as [(la & i & lb & d & n & -> & E & Ep & _ & C)|(Hn & C)].
    { unfold fuel_of; lia. }
    + rewrite C; cbn [bind]. left.
      destruct (ht_erase_rep t css fl h la i lb d n R Ec E) as (t' & Et & R' & K & Pm & _).
      exists (mk_iter h (Some i)), t'; eexists; exists i, d. split; [reflexivity|].
      split. { rewrite ht_end_eq. unfold it_eqb; simpl. apply andb_false_r. }
      split. { unfold it_deref; cbn [chain_loc]. rewrite (proj2 (Nat.ltb_lt _ _) (nth_error_lt _ _ _ E)), (get_Some _ _ _ E). reflexivity. }
      split; [exact Et|]. split; [do 2 eexists; split; [exact R'|reflexivity]|]. auto.
    + rewrite C; cbn [bind]. right. exists (ht_end t). split; auto. split; auto.
      intros i d Hin. apply in_live_of in Hin; destruct Hin as (Hi & Hn').
      destruct (equal k d) eqn:Eq; auto.
      destruct (in_concat_ex _ _ Hi) as (h' & c' & Ec' & Hi').
      assert (h' = h) by (eapply not_in_other; eauto). subst h'.
      rewrite Ec in Ec'; inversion Ec'; subst. destruct Hn' as [n E].
      rewrite (Hn _ _ _ Hi' E) in Eq; discriminate.
Qed.

(** *** randomlookup *)
Lemma random_chain_spec ep start : start < length ep ->
  (exists h j, nth_error ep h = Some (Some j)) ->
  forall n k chain, chain = (start + k) mod length ep -> n + k = length ep -> 
  (forall k', k' < k -> nth_error ep ((start + k') mod length ep) = Some None) ->
  exists c j, random_chain n ep start chain = Ok (c, j) /\ nth_error ep c = Some (Some j).
Proof.
  intros Hs (h & jh & Eh). assert (Hh := nth_error_lt _ _ _ Eh).
  assert (Hall : forall K, (forall k', k' < K -> nth_error ep ((start + k') mod length ep) = Some None) -> K < length ep).
  { intros K HK. destruct (Nat.lt_ge_cases K (length ep)) as [|HKl]; auto. exfalso.
    destruct (Nat.le_gt_cases start h) as [Hsh|Hsh].
    - assert (X := HK (h - start) ltac:(lia)). replace (start + (h - start)) with h in X by lia.
      rewrite Nat.mod_small in X by lia. congruence.
    - assert (X := HK (h + length ep - start) ltac:(lia)).
      replace (start + (h + length ep - start)) with (h + 1 * length ep) in X by lia.
      rewrite Nat.mod_add, Nat.mod_small in X by lia. congruence. }
  induction n as [|n IH]; intros k chain Hc Hk He.
  - exfalso. specialize (Hall k He). lia.
  - cbn [random_chain].
    assert (chain < length ep) by (subst; apply Nat.mod_upper_bound; lia).
    destruct (get_lt ep chain) as (e & Ee & G); auto. rewrite G; cbn [bind].
    destruct e as [j|]; [eauto|].
    assert (He' : forall k', k' < S k -> nth_error ep ((start + k') mod length ep) = Some None).
    { intros k' Hk'. destruct (Nat.eq_dec k' k) as [->|]; [now rewrite <- Hc|apply He; lia]. }
    assert (Hk2 := Hall (S k) He').
    assert (Hc2 : (chain + 1) mod length ep = (start + S k) mod length ep).
    { rewrite Hc. rewrite Nat.add_mod_idemp_l by lia. f_equal; lia. }
    rewrite Hc2. destruct (Nat.eqb_spec ((start + S k) mod length ep) start) as [Eq|Ne].
    + exfalso. destruct (Nat.lt_ge_cases (start + S k) (length ep)).
      * rewrite Nat.mod_small in Eq by lia. lia.
      * replace (start + S k) with ((start + S k - length ep) + 1 * length ep) in Eq by lia.
        rewrite Nat.mod_add, Nat.mod_small in Eq by lia. lia.
    + apply (IH (S k)); auto; lia.
Qed.

Lemma ht_randomlookup_spec t l a b : Live t l ->
  match l with
  | [] => ht_randomlookup t a b = Ok None
  | _ => exists i d, ht_randomlookup t a b = Ok (Some i) /\ In (i, d) l
  end.
Proof.
  intros L0. destruct (Live_size _ _ L0) as (Hsz & _). destruct L0 as (css & fl & R & El).
  unfold ht_randomlookup. rewrite Hsz. destruct l as [|x l]; [reflexivity|]. cbn [length Nat.eqb].
  assert (Hx : In x (live_of (chains t) (concat css))) by (rewrite <- El; simpl; auto).
  destruct x as [i0 d0]. apply in_live_of in Hx. destruct Hx as (Hi0 & n0 & E0).
  destruct (in_concat_ex _ _ Hi0) as (h & c & Ec & Hc).
  destruct (Forall2_nth_r _ _ _ _ _ (r_ep _ _ _ R) Ec) as (e & Ee & P).
  assert (Hne : exists h j, nth_error (entry_points t) h = Some (Some j)).
  { exists h. inversion P; subst; [destruct Hc|]. eauto. }
  assert (Hlen : 0 < length (entry_points t)) by (apply nth_error_lt in Ee; lia).
  destruct (Nat.eqb_spec (length (entry_points t)) 0); [lia|].
  set (start := N.to_nat (a mod N.of_nat (length (entry_points t)))).
  assert (Hst : start < length (entry_points t)).
  { assert (a mod N.of_nat (length (entry_points t)) < N.of_nat (length (entry_points t)))%N by (apply N.mod_lt; lia).
    unfold start; lia. }
  destruct (random_chain_spec (entry_points t) start Hst Hne (length (entry_points t)) 0 start) as (c1 & j1 & Er & Ec1).
  { rewrite Nat.add_0_r, Nat.mod_small; auto. } { lia. } { intros; lia. }
  rewrite Er; cbn [bind].
  destruct (Forall2_nth_l _ _ _ _ _ (r_ep _ _ _ R) Ec1) as (lc & Elc & Pl).
  assert (HL := rep_len_chain _ _ _ _ _ R Elc).
  rewrite (chain_walk_spec _ _ _ _ Pl) by (unfold fuel_of; lia). cbn [bind].
  destruct lc as [|y lc]; [inversion Pl|].
  assert (Hpos : 0 < length (y :: lc)) by (simpl; lia).
  rewrite (proj2 (Nat.ltb_lt _ _) Hpos); cbn [invariant bind].
  set (bb := N.to_nat (b mod N.of_nat (length (y :: lc)))).
  assert (Hb : bb < length (y :: lc)).
  { assert (b mod N.of_nat (length (y :: lc)) < N.of_nat (length (y :: lc)))%N by (apply N.mod_lt; lia).
    unfold bb; lia. }
  destruct (get_lt (y :: lc) bb Hb) as (i & Ei & _). rewrite Ei.
  assert (Hil : i < length (chains t)) by (eapply path_lt; [exact Pl|eapply nth_error_In; eauto]).
  destruct (get_lt (chains t) i Hil) as ([d n'] & Ed & _).
  exists i, d. split; auto. rewrite El. apply in_live_of; split; eauto.
  eapply in_concat_nth; eauto. eapply nth_error_In; eauto.
Qed.

(** Every live element can be drawn. *)
Lemma ht_randomlookup_reach t l i d : Live t l -> In (i, d) l ->
  exists a b, (a < N.of_nat (length (entry_points t)))%N /\ (b < N.of_nat (length l))%N
    /\ ht_randomlookup t a b = Ok (Some i).
Proof.
  intros L0 Hin. destruct (Live_size _ _ L0) as (Hsz & _). destruct L0 as (css & fl & R & El).
  assert (Hlenl : length l <> 0) by (destruct l; [destruct Hin|discriminate]).
  assert (Hlc : length l = length (concat css)).
  { rewrite El, <- (map_length fst), (rep_live_fst _ _ _ R). reflexivity. }
  rewrite El in Hin. apply in_live_of in Hin. destruct Hin as (Hi & n0 & E0).
  destruct (in_concat_ex _ _ Hi) as (h & c & Ec & Hc).
  destruct (Forall2_nth_r _ _ _ _ _ (r_ep _ _ _ R) Ec) as (e & Ee & P).
  destruct (In_nth_error _ _ Hc) as (b & Eb).
  assert (Hh := nth_error_lt _ _ _ Ee). assert (Hb := nth_error_lt _ _ _ Eb).
  assert (HcL : length c <= length (concat css)).
  { destruct (concat_upd_perm css h c [] Ec) as (r & H & _). apply Permutation_length in H; rewrite app_length in H. lia. }
  exists (N.of_nat h), (N.of_nat b). split; [lia|]. split; [lia|].
  unfold ht_randomlookup. rewrite Hsz. destruct (Nat.eqb_spec (length l) 0); [lia|].
  destruct (Nat.eqb_spec (length (entry_points t)) 0); [lia|].
  rewrite N.mod_small, Nat2N.id by lia.
  destruct e as [j|]; [|inversion P; subst; destruct Hc].
  assert (Er : random_chain (length (entry_points t)) (entry_points t) h h = Ok (h, j)).
  { destruct (length (entry_points t)) eqn:El0; [lia|]. cbn [random_chain]. rewrite (get_Some _ _ _ Ee). reflexivity. }
  rewrite Er; cbn [bind].
  assert (HL := rep_len_chain _ _ _ _ _ R Ec).
  rewrite (chain_walk_spec _ _ _ _ P) by (unfold fuel_of; lia). cbn [bind].
  rewrite (proj2 (Nat.ltb_lt _ _)) by lia; cbn [invariant bind].
  rewrite N.mod_small, Nat2N.id by lia. now rewrite Eb.
Qed.

(** *** Facts about [Live] used by clients *)
Lemma Live_perm_nodup t l : Live t l -> NoDup (map fst l).
Proof. intros (css & fl & R & ->). rewrite (rep_live_fst _ _ _ R). eapply NoDup_app_l, rep_nodup; eauto. Qed.

Lemma Live_get t l i d : Live t l -> In (i, d) l -> exists n, nth_error (chains t) i = Some (d, n).
Proof. clear equal default. intros (css & fl & R & ->) H. apply in_live_of in H. tauto. Qed.

Lemma ht_lookup_live t l k : eq_hash -> Live t l ->
  (exists i d, ht_lookup hashfn equal t k = Ok (Some i) /\ In (i, d) l /\ equal k d = true)
  \/ (ht_lookup hashfn equal t k = Ok None /\ forall i d, In (i, d) l -> equal k d = false).
Proof. intros EH (css & fl & R & ->). eapply ht_lookup_spec; eauto. Qed.

Lemma set_data_live t l i d d' : Live t l -> In (i, d) l -> hashfn d' = hashfn d ->
  exists t' l1 l2, set_data t i d' = Ok t' /\ l = l1 ++ (i, d) :: l2
    /\ Live t' (l1 ++ (i, d') :: l2)
    /\ length (chains t') = length (chains t) /\ tcl_num t' = tcl_num t /\ tcl_den t' = tcl_den t.
Proof. clear equal default.
  intros L0 Hin HH. assert (ND := Live_perm_nodup _ _ L0).
  destruct L0 as (css & fl & R & El).
  assert (Hin' := Hin). rewrite El in Hin'.
  destruct (set_data_spec _ _ _ _ _ _ R Hin' HH) as (t' & E & R' & Ec & _ & Hn & Hd).
  apply in_split in Hin. destruct Hin as (l1 & l2 & Hl).
  exists t', l1, l2. split; auto. split; auto. split.
  2:{ rewrite Ec, length_upd; auto. }
  exists css, fl. split; auto.
  rewrite Ec. apply in_live_of in Hin'. destruct Hin' as (Hi & n & Ei). rewrite Ei.
  assert (HX : forall ll, live_of (upd (chains t) i (d', n)) ll =
     map (fun x => if fst x =? i then (fst x, d') else x) (live_of (chains t) ll)).
  { induction ll as [|j ll IH]; auto. unfold live_of in *; simpl. rewrite map_app, IH. f_equal.
    unfold dat. rewrite nth_error_upd. destruct (Nat.eqb_spec i j) as [<-|Hj]; simpl.
    - rewrite (proj2 (Nat.ltb_lt _ _) (nth_error_lt _ _ _ Ei)), Ei; simpl. now rewrite Nat.eqb_refl.
    - destruct (nth_error (chains t) j) as [[]|]; simpl; auto.
      destruct (Nat.eqb_spec j i); [congruence|auto]. }
  rewrite HX, <- El, Hl. rewrite Hl in ND. rewrite map_app in ND; simpl in ND.
  rewrite map_app; simpl. rewrite Nat.eqb_refl. 
  assert (HY : forall ll, ~ In i (map fst ll) -> map (fun x : nat * D => if fst x =? i then (fst x, d') else x) ll = ll).
  { induction ll as [|x ll IH]; simpl; auto. intros HNi. destruct (Nat.eqb_spec (fst x) i); [tauto|]. f_equal; auto. }
  apply NoDup_remove_2 in ND. rewrite in_app_iff in ND. rewrite !HY; auto.
Qed.

End HTP.
