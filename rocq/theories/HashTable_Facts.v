(** Lemmas behind HashTable_Props.v, phrased for reachable tables. *)
From Coq Require Import List Arith NArith Lia Bool Permutation.
From Verif Require Import Common CommonFacts HashTable_Model HashTable_Spec HashTable_Proofs HashTable_Refine.
Import ListNotations.

Section F.
Context {D : Type}.
Variable hashfn : D -> N.
Variable equal : D -> D -> bool.
Variable default : D.
Hypothesis EH : forall a b, equal a b = true -> hashfn a = hashfn b.

(** [reachable t]: some client program that ran to completion produced [t]. *)
Definition reachable (t : ht D) : Prop :=
  exists num den t0 ops, ht_new num den = Ok t0 /\ ht_exec hashfn equal default t0 ops = Ok t.

Lemma reachable_live t : reachable t -> exists l, Live hashfn t l.
Proof. intros (num & den & t0 & ops & E & X).
  destruct (exec_live hashfn equal default num den EH ops t0 (mk_ts [] 0) t (new_rel hashfn num den t0 E) X) as (s & _ & _ & _ & _ & l & L & _).
  eauto. Qed.

(** Slots are partitioned into chains and free list. *)
Lemma reachable_partition t : reachable t ->
  exists css fl,
    length css = length (entry_points t)
    /\ (forall h e c, nth_error (entry_points t) h = Some e -> nth_error css h = Some c ->
          chain_walk (fuel_of t) (chains t) e = Ok c
          /\ forall i d n, In i c -> nth_error (chains t) i = Some (d, n) ->
               bucket_of hashfn (length (entry_points t)) d = h)
    /\ chain_walk (fuel_of t) (chains t) (free_list t) = Ok fl
    /\ Permutation (concat css ++ fl) (seq 0 (length (chains t)))
    /\ length fl = free_list_size t
    /\ ht_size t = length (concat css).
Proof.
  intros H. destruct (reachable_live t H) as (l & L0). assert (L := L0). destruct L as (css & fl & R & El).
  exists css, fl. assert (Len := rep_len _ _ _ _ R).
  split; [symmetry; eapply Forall2_length'; apply (r_ep _ _ _ _ R)|].
  split. { intros h e c Ee Ec. split.
    - destruct (Forall2_nth_l _ _ _ _ _ (r_ep _ _ _ _ R) Ee) as (c' & Ec' & P). rewrite Ec in Ec'; inversion Ec'; subst c'.
      apply chain_walk_spec; auto. assert (X := rep_len_chain _ _ _ _ _ _ R Ec). unfold fuel_of; lia.
    - intros i d n Hi En. eapply (r_hash _ _ _ _ R); eauto. }
  split. { apply chain_walk_spec; [apply (r_fl _ _ _ _ R)|unfold fuel_of; lia]. }
  split; [apply (r_perm _ _ _ _ R)|]. split; [apply (r_fls _ _ _ _ R)|].
  destruct (Live_size _ _ _ L0) as (-> & _). rewrite El, <- (map_length fst), (rep_live_fst _ _ _ _ R). reflexivity.
Qed.

Lemma reachable_iterate t : reachable t ->
  exists css, (forall h e c, nth_error (entry_points t) h = Some e -> nth_error css h = Some c ->
          chain_walk (fuel_of t) (chains t) e = Ok c)
    /\ length css = length (entry_points t)
    /\ NoDup (concat css)
    /\ exists l, ht_iterate t = Ok l /\ length l = ht_size t
       /\ Forall2 (fun i d => exists n, nth_error (chains t) i = Some (d, n)) (concat css) l.
Proof.
  intros H. destruct (reachable_partition t H) as (css & fl & H1 & H2 & H3 & H4 & H5 & H6).
  exists css. split; [intros; eapply H2; eauto|]. split; auto.
  destruct (reachable_live t H) as (l & L). assert (L' := L). destruct L' as (css' & fl' & R & El).
  assert (css' = css).
  { apply (Forall2_eq_nth css' css). 
    - rewrite H1. symmetry. eapply Forall2_length'; apply (r_ep _ _ _ _ R).
    - intros i x y Ex Ey. destruct (Forall2_nth_r _ _ _ _ _ (r_ep _ _ _ _ R) Ex) as (e & Ee & P).
      destruct (H2 _ _ _ Ee Ey) as (W & _). assert (X := rep_len_chain _ _ _ _ _ _ R Ex).
      rewrite (chain_walk_spec _ _ _ (fuel_of t) P) in W by (unfold fuel_of; lia). congruence. }
  subst css'.
  split; [eapply NoDup_app_l, rep_nodup; eauto|].
  exists (map snd l). split; [now apply (ht_iterate_spec hashfn)|]. split.
  { rewrite map_length. symmetry. apply (Live_size hashfn _ _ L). }
  rewrite El. assert (Hlt : forall i, In i (concat css) -> i < length (chains t)).
  { intros i Hi. eapply rep_in_lt; eauto. apply in_or_app; auto. }
  clear - Hlt. induction (concat css) as [|i r IH]; [constructor|].
  destruct (get_lt (chains t) i) as ([d n] & En & _); [apply Hlt; simpl; auto|].
  rewrite (live_of_cons _ _ _ _ _ En). simpl. constructor; eauto. apply IH. intros; apply Hlt; simpl; auto.
Qed.

(** Advancing an iterator [n] times from begin(). *)
Fixpoint it_advance (t : ht D) (n : nat) (it : iter) : res iter :=
  match n with
  | O => Ok it
  | S n' => let! it' := it_increment t it in it_advance t n' it'
  end.

Lemma it_advance_at t css fl pre : rep hashfn t css fl -> forall rem it,
  it_at t css it (pre ++ rem) -> exists it', it_advance t (length pre) it = Ok it' /\ it_at t css it' rem.
Proof. intros R. induction pre as [|i pre IH]; intros rem it A; simpl; [eauto|].
  simpl in A. destruct (it_step _ _ _ _ _ _ _ R A) as (it' & d & n & _ & _ & _ & E & A' & _).
  rewrite E; cbn [bind]. eauto. Qed.

Lemma concat_upd_exact {A} (css : list (list A)) h c c' : nth_error css h = Some c ->
  concat css = concat (firstn h css) ++ c ++ concat (skipn (S h) css)
  /\ concat (upd css h c') = concat (firstn h css) ++ c' ++ concat (skipn (S h) css).
Proof. revert h; induction css as [|x css IH]; intros [|h] E; simpl in *; try discriminate.
  - inversion E; auto.
  - destruct (IH _ E) as (H1 & H2). rewrite H1, H2 at 1. rewrite <- !app_assoc. split; auto.
Qed.

Lemma reachable_erase t l1 d l2 : reachable t -> ht_iterate t = Ok (l1 ++ d :: l2) ->
  exists it t', it_advance t (length l1) (ht_begin t 0) = Ok it /\ it_deref t it = Ok d
    /\ ht_erase default t it = Ok t' /\ ht_iterate t' = Ok (l1 ++ l2)
    /\ ht_size t = S (ht_size t')
    /\ (l2 <> [] -> exists it', it_increment t it = Ok it' /\ Some (it_deref t' it') = option_map Ok (hd_error l2)).
Proof.
  intros H E. destruct (reachable_live t H) as (l & L0). assert (L := L0). destruct L as (css & fl & R & El).
  rewrite (ht_iterate_spec hashfn _ _ L0) in E. inversion E as [E']; clear E.
  (* split the slot list accordingly *)
  assert (Hsl : exists p1 i p2, concat css = p1 ++ i :: p2 /\ map snd (live_of (chains t) p1) = l1
             /\ (exists n, nth_error (chains t) i = Some (d, n)) /\ map snd (live_of (chains t) p2) = l2 /\ length p1 = length l1).
  { assert (Hlt : forall i, In i (concat css) -> i < length (chains t)).
    { intros i Hi. eapply rep_in_lt; eauto. apply in_or_app; auto. }
    rewrite El in E'. clear - E' Hlt. revert l1 E'. induction (concat css) as [|i r IH]; intros l1 E'.
    - destruct l1; discriminate.
    - destruct (get_lt (chains t) i) as ([di n] & En & _); [apply Hlt; simpl; auto|].
      rewrite (live_of_cons _ _ _ _ _ En) in E'. simpl in E'. destruct l1 as [|x l1]; simpl in E'; inversion E'; subst.
      + exists [], i, r. simpl; eauto 8.
      + destruct (IH (fun j Hj => Hlt j (or_intror Hj)) l1 H1) as (p1 & j & p2 & -> & X1 & X2 & X3 & X4).
        exists (i :: p1), j, p2. split; auto. split; [rewrite (live_of_cons _ _ _ _ _ En); simpl; congruence|]. simpl; auto. }
  destruct Hsl as (p1 & i & p2 & Ep & X1 & (n & En) & X3 & X4).
  assert (A0 := ht_begin_at _ _ _ _ R). rewrite Ep in A0.
  destruct (it_advance_at t css fl p1 R _ _ A0) as (it & Ead & A1). rewrite X4 in Ead.
  destruct (it_step _ _ _ _ _ _ _ R A1) as (it' & d' & n' & En' & Eloc & Ed & Einc & A2 & m0 & m & Ec & Hrem & Hm1 & Hm2).
  rewrite En in En'; inversion En'; subst d' n'.
  destruct (ht_erase_rep hashfn default t css fl (cur_chain it) m0 i m d n R Ec En) as (t' & Et & R' & Kp & Pm & Fd & _).
  assert (Eit : it = mk_iter (cur_chain it) (Some i)) by (destruct it; simpl in *; congruence).
  assert (Et2 : ht_erase default t it = Ok t') by (rewrite Eit; exact Et).
  exists it, t'. split; auto. split; auto. split; auto.
  destruct (concat_upd_exact css (cur_chain it) _ (m0 ++ m) Ec) as (Y1 & Y2).
  assert (Hp1 : p1 = concat (firstn (cur_chain it) css) ++ m0).
  { rewrite Ep in Y1. rewrite Hrem in Y1. rewrite <- !app_assoc in Y1. simpl in Y1. rewrite app_assoc in Y1.
    eapply app_inv_tail. exact Y1. }
  assert (Hcat : concat (upd css (cur_chain it) (m0 ++ m)) = p1 ++ p2).
  { rewrite Y2, Hp1, Hrem. now rewrite <- !app_assoc. }
  assert (ND : NoDup (p1 ++ i :: p2)) by (rewrite <- Ep; eapply NoDup_app_l, rep_nodup; eauto).
  assert (Hni := NoDup_remove_2 _ _ _ ND).
  assert (L' : Live hashfn t' (live_of (chains t') (p1 ++ p2))) by (rewrite <- Hcat; do 2 eexists; split; [exact R'|reflexivity]).
  assert (Hlv : live_of (chains t') (p1 ++ p2) = live_of (chains t) (p1 ++ p2)).
  { apply live_of_ext. intros j Hj. apply Fd. intros ->; auto. }
  split.
  { rewrite (ht_iterate_spec hashfn _ _ L'), Hlv, live_of_app, map_app. congruence. }
  split.
  { destruct (Live_size _ _ _ L0) as (-> & _). destruct (Live_size _ _ _ L') as (-> & _).
    rewrite Hlv, live_of_app, app_length. rewrite <- (map_length snd l), E', app_length. simpl.
    rewrite <- X1, <- X3, !map_length. lia. }
  intros Hne. exists it'. split; auto.
  assert (A3 : it_at t' (upd css (cur_chain it) (m0 ++ m)) it' p2).
  { eapply it_at_erased; eauto. intros Hi. apply Hni, in_or_app; auto. }
  destruct p2 as [|j p2]; [simpl in X3; congruence|].
  destruct (it_step _ _ _ _ _ _ _ R' A3) as (it2 & dj & nj & Enj & _ & Edj & _).
  rewrite Edj. assert (Hj : option_map fst (nth_error (chains t) j) = Some dj).
  { rewrite <- Fd; [now rewrite Enj|]. intros ->. apply Hni, in_or_app; simpl; auto. }
  destruct (nth_error (chains t) j) as [[dj' nj']|] eqn:Ej; simpl in Hj; [|discriminate]. inversion Hj; subst dj'.
  rewrite (live_of_cons _ _ _ _ _ Ej) in X3. simpl in X3. rewrite <- X3. reflexivity.
Qed.

Lemma reachable_random t : reachable t ->
  exists l, ht_iterate t = Ok l
   /\ (forall a b, match l with
                   | [] => ht_randomlookup t a b = Ok None
                   | _ => exists i d n, ht_randomlookup t a b = Ok (Some i) /\ nth_error (chains t) i = Some (d, n) /\ In d l
                   end)
   /\ (forall d, In d l -> exists a b i n, (b < N.of_nat (length l))%N /\ (a < N.of_nat (length (entry_points t)))%N
         /\ ht_randomlookup t a b = Ok (Some i) /\ nth_error (chains t) i = Some (d, n)).
Proof.
  intros H. destruct (reachable_live t H) as (l & L). exists (map snd l). split; [now apply (ht_iterate_spec hashfn)|]. split.
  - intros a b. assert (X := ht_randomlookup_spec hashfn t l a b L). destruct l as [|x l]; auto.
    simpl. destruct X as (i & d & E & Hi). destruct (Live_get _ _ _ _ _ L Hi) as (n & En).
    exists i, d, n. split; auto. split; auto. change (In d (map snd (x :: l))). apply in_map_iff. now exists (i, d).
  - intros d Hd. apply in_map_iff in Hd. destruct Hd as ([i d'] & <- & Hi). simpl.
    destruct (ht_randomlookup_reach hashfn t l i d' L Hi) as (a & b & Ha & Hb & E).
    destruct (Live_get _ _ _ _ _ L Hi) as (n & En). exists a, b, i, n. rewrite map_length. auto.
Qed.
End F.

Section F2.
Context {D : Type}.
Variable hashfn : D -> N.
Variable equal : D -> D -> bool.
Variable default : D.
Hypothesis EH : forall a b, equal a b = true -> hashfn a = hashfn b.

Lemma reachable_erase_if t p : reachable hashfn equal default t ->
  exists visited t' l', ht_erase_if default p t = Ok (visited, t')
    /\ ht_iterate t = Ok visited
    /\ ht_iterate t' = Ok l' /\ Permutation l' (filter (fun d => negb (p d)) visited).
Proof.
  intros H. destruct (reachable_live _ _ _ EH t H) as (l & L).
  destruct (ht_erase_if_spec hashfn default p t l L) as (t1 & l' & E1 & L' & _ & P).
  exists (map snd l), t1, (map snd l'). split; auto. split; [now apply (ht_iterate_spec hashfn)|].
  split; [now apply (ht_iterate_spec hashfn)|].
  assert (Q : Permutation (filter (fun x => p (snd x)) l ++ l')
                          (filter (fun x => p (snd x)) l ++ filter (fun x => negb (p (snd x))) l)).
  { rewrite <- P. apply filter_split_perm. }
  apply Permutation_app_inv_l in Q. rewrite Q. now rewrite (map_snd_filter (fun d => negb (p d))).
Qed.

Lemma addOrReplace_new t t' v i : equal v v = true -> reachable hashfn equal default t ->
  ht_addOrReplace hashfn equal t v = Ok (t', i, false) ->
  exists j, ht_lookup hashfn equal t' v = Ok (Some j) /\ deref t' j = Ok v.
Proof.
  intros Hvv H E. destruct (reachable_live _ _ _ EH t H) as (l & L). unfold ht_addOrReplace in E.
  destruct (ht_lookup_live hashfn equal t l v EH L) as [(i0 & d0 & E0 & _)|(E0 & Hn)]; rewrite E0 in E; cbn [bind] in E; [inversion E|].
  destruct (internalAdd_spec hashfn t l v L) as [(t1 & l1 & i1 & E1 & L1 & P1 & _)|(E1 & _)]; rewrite E1 in E; cbn [bind] in E; [|discriminate].
  inversion E; subst t1 i1.
  destruct (ht_lookup_live hashfn equal t' l1 v EH L1) as [(j & d & Ej & Hj & Eq)|(Ej & Hn')].
  - exists j. split; auto. destruct (Live_get _ _ _ _ _ L1 Hj) as (n & En). unfold deref. rewrite (get_Some _ _ _ En). cbn [bind].
    apply (Permutation_in _ P1) in Hj. destruct Hj as [Hj|Hj]; [congruence|]. rewrite (Hn _ _ Hj) in Eq; discriminate.
  - exfalso. rewrite (Hn' i v) in Hvv; [discriminate|]. eapply Permutation_in; [apply Permutation_sym; exact P1|simpl; auto].
Qed.
End F2.

Lemma addOrReplace_refuted :
  exists (hashfn : nat * nat -> N) (equal : nat * nat -> nat * nat -> bool) (t : ht (nat * nat)) (v : nat * nat),
  (forall a b, equal a b = true -> hashfn a = hashfn b)
  /\ reachable hashfn equal (0, 0) t
  /\ exists t' i, ht_addOrReplace hashfn equal t v = Ok (t', i, true)
     /\ exists j, ht_lookup hashfn equal t' v = Ok (Some j) /\ deref t' j <> Ok v.
Proof.
  exists (fun p => N.of_nat (fst p)), (fun a b => fst a =? fst b).
  eexists. exists (1, 20). split; [|split].
  - intros a b H. apply Nat.eqb_eq in H. now rewrite H.
  - exists 2, 1, (mk_ht None 0 [] [] 2 1), [TAddOrReplace (1, 10)]. split; [reflexivity|]. vm_compute. reflexivity.
  - do 2 eexists. split; [vm_compute; reflexivity|]. eexists; split; [vm_compute; reflexivity|]. vm_compute. discriminate.
Qed.
