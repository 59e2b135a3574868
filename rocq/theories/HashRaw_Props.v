(** C111 and C112: the raw data of a HashTable and the lengths of its chains. *)
From Coq Require Import List Arith NArith Lia Bool Permutation.
From Verif Require Import Common CommonFacts HashTable_Model HashTable_Spec HashTable_Proofs HashTable_Refine HashTable_Facts HashRaw_Model.
Import ListNotations.

Section P.
Context {D : Type}.
Variable hashfn : D -> N.
Variable equal : D -> D -> bool.
Variable default : D.
Hypothesis EH : forall a b, equal a b = true -> hashfn a = hashfn b.

Lemma dense_fl t css fl : rep hashfn t css fl -> ht_dense t = true <-> fl = [].
Proof. intros R. pose proof (r_fl _ _ _ _ R) as P. unfold ht_dense. inversion P; subst; split; congruence. Qed.
Lemma dense_size t l : Live hashfn t l -> ht_dense t = true <-> length (chains t) = ht_size t.
Proof.
  intros L. destruct (Live_size hashfn t l L) as (Hs & Hf). destruct L as (css & fl & R & _). rewrite (dense_fl t css fl R). pose proof (r_fls _ _ _ _ R) as F. unfold ht_size in *. split; [intros ->; cbn in F; lia|]. intros E. destruct fl; [reflexivity|]. cbn in F. lia.
Qed.
Lemma size_le t l : Live hashfn t l -> ht_size t <= length (chains t).
Proof. intros _. unfold ht_size. lia. Qed.

Lemma live_seq (cs : list (D * option nat)) : map snd (live_of cs (seq 0 (length cs))) = map fst cs.
Proof.
  assert (X : forall pre post : list (D * option nat), map snd (live_of (pre ++ post) (seq (length pre) (length post))) = map fst post).
  { intros pre post. revert pre. induction post as [|x post IH]; intros pre; [reflexivity|]. cbn [length seq live_of flat_map map]. rewrite map_app. unfold dat at 1. rewrite nth_error_app2, Nat.sub_diag by lia. cbn [nth_error]. destruct x as [d n]. cbn [map snd app fst]. f_equal. specialize (IH (pre ++ [(d, n)])). rewrite app_length in IH. cbn [length] in IH. rewrite <- app_assoc in IH. cbn [app] in IH. rewrite <- (Nat.add_1_r (length pre)). exact IH. }
  exact (X [] cs).
Qed.
(** The raw vector of a table holds exactly its elements, each once, if dense() is true; else
    the vector has entries that are none and the call stops the program. *)
Theorem C111_raw : forall t, reachable hashfn equal default t ->
  exists l, ht_iterate t = Ok l /\
  if ht_dense t then exists v, ht_raw t = Ok v /\ Permutation v l
  else ht_raw t = Abort /\ length l < length (chains t).
Proof.
  intros t Rt. destruct (reachable_live hashfn equal default EH t Rt) as (l & L). exists (map snd l). split; [now apply (ht_iterate_spec hashfn)|]. destruct (ht_dense t) eqn:Ed; unfold ht_raw; rewrite Ed; cbn [invariant bind].
  - eexists. split; [reflexivity|]. destruct L as (css & fl & R & ->). apply (dense_fl t css fl R) in Ed. subst fl. pose proof (r_perm _ _ _ _ R) as P. rewrite app_nil_r in P. rewrite <- live_seq. apply Permutation_map, live_of_perm. now apply Permutation_sym.
  - split; [reflexivity|]. rewrite map_length. destruct (Live_size hashfn t l L) as (Hs & Hf). rewrite <- Hs. pose proof (dense_size t l L) as Q. pose proof (size_le t l L). destruct (Nat.eq_dec (length (chains t)) (ht_size t)) as [E|]; [apply Q in E; congruence|lia].
Qed.

(** [pre] is a beginning of the program [ops] after which the table was not cleared. *)
Definition no_clear (o : top D) : bool := match o with TClear => false | _ => true end.

Lemma add_len t l d t' i : Live hashfn t l -> internalAdd hashfn t d = Ok (t', i) -> length (chains t') = length (chains t) \/ (length (chains t') = S (length (chains t)) /\ ht_dense t' = true).
Proof.
  intros L E. destruct (internalAdd_spec hashfn t l d L) as [(t1 & l1 & i1 & E1 & L1 & P1 & Hlen & _)|(E1 & _)]; [|congruence]. rewrite E in E1. injection E1 as <- <-.
  destruct (free_list t) as [loc|] eqn:Hf.
  - left. unfold internalAdd in E. rewrite Hf in E. cbn [bind] in E. destruct (invariant _); cbn [bind] in E; try discriminate. destruct (get (entry_points t) _) as [e| | |]; cbn [bind] in E; try discriminate. rewrite Hf in E. destruct (get (chains t) loc) as [[x n]| | |]; cbn [bind] in E; try discriminate. unfold put in E. destruct (loc <? length (chains t)); cbn [bind] in E; try discriminate. destruct (_ <? length (entry_points t)); cbn [bind] in E; try discriminate. injection E as <- <-. cbn [chains]. apply length_upd.
  - right. assert (Ed : ht_dense t = true) by (unfold ht_dense; now rewrite Hf). apply (dense_size t l L) in Ed. destruct (Live_size hashfn t l L) as (Hs & _). destruct (Live_size hashfn t' l1 L1) as (Hs1 & _). pose proof (Permutation_length P1) as PL. cbn [length] in PL. pose proof (size_le t' l1 L1). split; [lia|]. apply (dense_size t' l1 L1). lia.
Qed.
Lemma step_len t l o t' out : Live hashfn t l -> ht_step hashfn equal default t o = Ok (t', out) -> no_clear o = true ->
  length (chains t') = length (chains t) \/ (length (chains t') = S (length (chains t)) /\ ht_dense t' = true).
Proof.
  intros L E N. destruct o as [d|d|k|k must|k|p| |n| | | |a b]; cbn [ht_step] in E; try discriminate.
  - unfold ht_add in E. destruct (internalAdd hashfn t d) as [[t1 i]| | |] eqn:Ea; cbn [bind] in E; try discriminate. destruct (deref t1 i); cbn [bind] in E; try discriminate. injection E as <- <-. now apply (add_len t l d t1 i).
  - unfold ht_addOrReplace in E. destruct (ht_lookup hashfn equal t d) as [[j|]| | |]; cbn [bind] in E; try discriminate.
    + destruct (deref t j); cbn [bind] in E; try discriminate. injection E as <- <-. now left.
    + destruct (internalAdd hashfn t d) as [[t1 i]| | |] eqn:Ea; cbn [bind] in E; try discriminate. destruct (deref t1 i); cbn [bind] in E; try discriminate. injection E as <- <-. now apply (add_len t l d t1 i).
  - destruct (ht_lookup hashfn equal t k); cbn [bind] in E; try discriminate. destruct (deref_opt t _); cbn [bind] in E; try discriminate. injection E as <- <-. now left.
  - left. destruct (ht_remove_spec hashfn equal default t l k must EH L) as [(t1 & l1 & i & d & E1 & _ & _ & _ & K)|(E1 & _)]; rewrite E1 in E; [cbn [bind] in E; injection E as <- <-; apply K|]. destruct must; cbn [bind] in E; [discriminate|]. injection E as <- <-. reflexivity.
  - left. destruct (ht_find_erase_spec hashfn equal default t l k EH L) as [(it & t1 & l1 & i & d & E1 & Ee & Ed & Et & _ & _ & _ & K)|(it & E1 & Ee & _)]; rewrite E1 in E; cbn [bind] in E; rewrite Ee in E; [rewrite Ed, Et in E; cbn [bind] in E; injection E as <- <-; apply K|]. injection E as <- <-. reflexivity.
  - left. destruct (ht_erase_if_spec hashfn default p t l L) as (t1 & l1 & E1 & _ & K & _). rewrite E1 in E. cbn [bind] in E. injection E as <- <-. apply K.
  - left. destruct (ht_reserve_spec hashfn t l n L) as [(t1 & E1 & _ & _ & C & C' & _)|(E1 & _)]; rewrite E1 in E; cbn [bind] in E; [|discriminate]. injection E as <- <-. now rewrite C, C'.
  - injection E as <- <-. now left.
  - destruct (ht_verifyFreeListSize t); cbn [bind] in E; try discriminate. injection E as <- <-. now left.
  - destruct (ht_iterate t); cbn [bind] in E; try discriminate. injection E as <- <-. now left.
  - destruct (ht_randomlookup t a b); cbn [bind] in E; try discriminate. destruct (deref_opt t _); cbn [bind] in E; try discriminate. injection E as <- <-. now left.
Qed.
Lemma exec_app : forall ops t o, ht_exec hashfn equal default t (ops ++ [o]) = let! t1 := ht_exec hashfn equal default t ops in let! (t2, _) := ht_step hashfn equal default t1 o in Ok t2.
Proof. induction ops as [|x ops IH]; intros t o; cbn [app ht_exec bind]; [destruct (ht_step hashfn equal default t o) as [[? ?]| | |]; reflexivity|]. destruct (ht_step hashfn equal default t x) as [[t1 out]| | |]; cbn [bind]; [apply IH|reflexivity|reflexivity|reflexivity]. Qed.
Lemma snoc_split {A} (l : list A) e b a : l ++ [e] = b ++ a -> (a = [] /\ b = l ++ [e]) \/ exists a', a = a' ++ [e] /\ l = b ++ a'.
Proof.
  destruct a as [|y a] using rev_ind; intros E.
  - left. rewrite app_nil_r in E. now split.
  - right. exists a. rewrite app_assoc in E. apply app_inj_tail in E as (-> & ->). now split.
Qed.
Lemma peak num den t0 : ht_new num den = Ok t0 -> forall ops t, ht_exec hashfn equal default t0 ops = Ok t ->
  (forall pre post tp, ops = pre ++ post -> forallb no_clear post = true -> ht_exec hashfn equal default t0 pre = Ok tp -> ht_size tp <= length (chains t)) /\
  (exists pre post tp, ops = pre ++ post /\ forallb no_clear post = true /\ ht_exec hashfn equal default t0 pre = Ok tp /\ ht_size tp = length (chains t)).
Proof.
  intros Hn ops. assert (RL : forall ops t, ht_exec hashfn equal default t0 ops = Ok t -> exists l, Live hashfn t l) by (intros ops' t' X; apply (reachable_live hashfn equal default EH); now exists num, den, t0, ops').
  induction ops as [|o ops IH] using rev_ind; intros t E.
  - cbn in E. injection E as <-. assert (C : chains t0 = []) by (unfold ht_new in Hn; destruct (_ && _); [injection Hn as <-; reflexivity|discriminate]). split.
    + intros pre post tp Q _ X. symmetry in Q. apply app_eq_nil in Q as (-> & ->). cbn in X. injection X as <-. unfold ht_size. lia.
    + exists [], [], t0. split; [reflexivity|split; [reflexivity|split; [reflexivity|]]]. unfold ht_size. rewrite C. reflexivity.
  - rewrite exec_app in E. destruct (ht_exec hashfn equal default t0 ops) as [t1| | |] eqn:E1; cbn [bind] in E; try discriminate. destruct (ht_step hashfn equal default t1 o) as [[t2 out]| | |] eqn:E2; cbn [bind] in E; try discriminate. injection E as ->.
    destruct (IH t1 eq_refl) as (A & B). destruct (RL _ _ E1) as (l1 & L1). assert (E' : ht_exec hashfn equal default t0 (ops ++ [o]) = Ok t) by (rewrite exec_app, E1; cbn [bind]; now rewrite E2). destruct (RL _ _ E') as (l & L).
    destruct (no_clear o) eqn:Nc.
    + pose proof (step_len t1 l1 o t out L1 E2 Nc) as SL. split.
      * intros pre post tp Q F X. apply snoc_split in Q as [(-> & ->)|(a' & -> & ->)].
        -- rewrite E' in X. injection X as <-. now apply (size_le t l).
        -- rewrite forallb_app in F. apply andb_prop in F as (F & _). specialize (A pre a' tp eq_refl F X). lia.
      * destruct SL as [SL|(SL & Ed)].
        -- destruct B as (pre & post & tp & -> & F & X & Hs). exists pre, (post ++ [o]), tp. rewrite app_assoc, forallb_app. cbn [forallb]. rewrite F, Nc, SL. auto.
        -- exists (ops ++ [o]), [], t. rewrite app_nil_r. repeat split; auto. symmetry. now apply (dense_size t l L).
    + assert (o = TClear) as -> by (destruct o; try discriminate; reflexivity). cbn [ht_step] in E2. injection E2 as <- <-. assert (C : chains (ht_clear t1) = []) by reflexivity. split.
      * intros pre post tp Q F X. apply snoc_split in Q as [(-> & ->)|(a' & -> & ->)]; [rewrite E' in X; injection X as <-; now apply (size_le _ l)|]. rewrite forallb_app in F. apply andb_prop in F as (_ & F). discriminate.
      * exists (ops ++ [TClear]), [], (ht_clear t1). rewrite app_nil_r. split; [reflexivity|split; [reflexivity|split; [exact E'|]]]. unfold ht_size. rewrite C. reflexivity.
Qed.
(** dense() is true exactly if the table has now as many elements as it ever had since it was
    made or cleared: if elements were only added, or as many were added again as removed. *)
Theorem C111_dense : forall num den t0 ops t, ht_new num den = Ok t0 -> ht_exec hashfn equal default t0 ops = Ok t ->
  ht_dense t = true <->
  (forall pre post tp, ops = pre ++ post -> forallb no_clear post = true -> ht_exec hashfn equal default t0 pre = Ok tp -> ht_size tp <= ht_size t).
Proof.
  intros num den t0 ops t Hn E. destruct (reachable_live hashfn equal default EH t) as (l & L); [now exists num, den, t0, ops|]. destruct (peak num den t0 Hn ops t E) as (A & B). rewrite (dense_size t l L). pose proof (size_le t l L). split.
  - intros Q. intros pre post tp H1 H2 H3. specialize (A pre post tp H1 H2 H3). lia.
  - intros Q. destruct B as (pre & post & tp & H1 & H2 & H3 & Hs). specialize (Q pre post tp H1 H2 H3). lia.
Qed.

Lemma chain_length_walk : forall fuel cs j len l, chain_walk fuel cs j = Ok l -> chain_length (D := D) fuel cs j len = Ok (len + length l).
Proof.
  induction fuel as [|f IH]; intros cs [j|] len l E; cbn [chain_walk chain_length] in *; try discriminate; try (injection E as <-; cbn; now rewrite Nat.add_0_r).
  destruct (get cs j) as [[d n]| | |]; cbn [bind] in *; try discriminate. destruct (chain_walk f cs n) as [r| | |] eqn:E1; cbn [bind] in E; try discriminate. injection E as <-. rewrite (IH cs n (S len) r E1). cbn [length]. f_equal. lia.
Qed.
Lemma lengths_ok fuel cs : forall ep css, length css = length ep -> (forall h e c, nth_error ep h = Some e -> nth_error css h = Some c -> chain_walk fuel cs e = Ok c) ->
  chain_lengths (D := D) fuel cs ep = Ok (map (@length nat) css).
Proof.
  induction ep as [|e ep IH]; intros [|c css] L H; cbn in L; try discriminate; [reflexivity|]. cbn [chain_lengths]. rewrite (chain_length_walk fuel cs e 0 c (H 0 e c eq_refl eq_refl)). cbn [bind]. rewrite (IH css); [reflexivity|lia|]. intros h e' c'. exact (H (S h) e' c').
Qed.
Lemma filter_all {A} (f : A -> bool) l : (forall x, In x l -> f x = true) -> filter f l = l.
Proof. induction l as [|x l IH]; intros H; [reflexivity|]. cbn. rewrite (H x) by now left. f_equal. apply IH. intros y Hy. apply H. now right. Qed.
Lemma filter_none {A} (f : A -> bool) l : (forall x, In x l -> f x = false) -> filter f l = [].
Proof. induction l as [|x l IH]; intros H; [reflexivity|]. cbn. rewrite (H x) by now left. apply IH. intros y Hy. apply H. now right. Qed.
Lemma segment (cs : list (D * option nat)) (b : D -> nat) : forall css k h, (forall j c i d n, nth_error css j = Some c -> In i c -> nth_error cs i = Some (d, n) -> b d = k + j) ->
  filter (fun d => b d =? k + h) (map snd (live_of cs (concat css))) = match nth_error css h with Some c => map snd (live_of cs c) | None => [] end.
Proof.
  assert (In_live : forall c d, In d (map snd (live_of cs c)) -> exists i n, In i c /\ nth_error cs i = Some (d, n)).
  { intros c d Hd. apply in_map_iff in Hd as ([i d'] & <- & Hd). unfold live_of in Hd. apply in_flat_map in Hd as (j & Hj & Hd). unfold dat in Hd. destruct (nth_error cs j) as [[x n]|] eqn:E; [|easy]. destruct Hd as [Q|[]]. injection Q as <- <-. now exists j, n. }
  induction css as [|c css IH]; intros k h H; [now destruct h|]. cbn [concat]. unfold live_of at 1. rewrite flat_map_app, map_app, filter_app. fold (live_of cs c). fold (live_of cs (concat css)). destruct h as [|h]; cbn [nth_error].
  - rewrite filter_all.
    + rewrite filter_none; [apply app_nil_r|]. intros d Hd. apply In_live in Hd as (i & n & Hi & E). apply in_concat in Hi as (c' & Hc' & Hi). apply In_nth_error in Hc' as (j & Hj). specialize (H (S j) c' i d n Hj Hi E). destruct (Nat.eqb_spec (b d) (k + 0)); [lia|reflexivity].
    + intros d Hd. apply In_live in Hd as (i & n & Hi & E). rewrite (H 0 c i d n eq_refl Hi E). apply Nat.eqb_refl.
  - rewrite filter_none.
    + cbn [app]. rewrite <- (IH (S k) h).
      * rewrite <- (Nat.add_succ_comm k h). reflexivity.
      * intros j c' i d n Hj Hi E. rewrite (H (S j) c' i d n Hj Hi E). lia.
    + intros d Hd. apply In_live in Hd as (i & n & Hi & E). rewrite (H 0 c i d n eq_refl Hi E). destruct (Nat.eqb_spec (k + 0) (k + S h)); [lia|reflexivity].
Qed.
Lemma live_len (cs : list (D * option nat)) c : (forall i, In i c -> i < length cs) -> length (live_of cs c) = length c.
Proof. induction c as [|i c IH]; intros H; [reflexivity|]. cbn [live_of flat_map]. rewrite app_length. fold (live_of cs c). rewrite IH by (intros j Hj; apply H; now right). unfold dat. destruct (nth_error cs i) as [[d n]|] eqn:E; [reflexivity|]. apply nth_error_None in E. specialize (H i (or_introl eq_refl)). lia. Qed.
(** chainLengthStats adds one number for each chain: how many elements of the table have a
    hash value that belongs to it; together they are size(). *)
Theorem C112_chain_lengths : forall t, reachable hashfn equal default t ->
  exists l ls, ht_iterate t = Ok l /\ ht_chainLengthStats t = Ok ls /\ length ls = length (entry_points t) /\ list_sum ls = ht_size t /\
  forall h n, nth_error ls h = Some n -> n = length (filter (fun d => N.to_nat (N.modulo (hashfn d) (N.of_nat (length ls))) =? h) l).
Proof.
  intros t Rt. destruct (reachable_live hashfn equal default EH t Rt) as (l & L). assert (L' := L). destruct L' as (css & fl & R & ->). exists (map snd (live_of (chains t) (concat css))), (map (@length nat) css).
  assert (Len : length css = length (entry_points t)) by (symmetry; eapply Forall2_length'; apply (r_ep _ _ _ _ R)).
  split; [now apply (ht_iterate_spec hashfn)|]. split; [|split; [now rewrite map_length|split]].
  - apply lengths_ok; [exact Len|]. intros h e c Ee Ec. destruct (Forall2_nth_l _ _ _ _ _ (r_ep _ _ _ _ R) Ee) as (c' & Ec' & P). rewrite Ec in Ec'. injection Ec' as <-. apply chain_walk_spec; [exact P|]. pose proof (rep_len_chain _ _ _ _ _ _ R Ec). unfold fuel_of. lia.
  - destruct (Live_size hashfn t _ L) as (-> & _). rewrite live_len.
    + induction css as [|c css IHc]; [reflexivity|]. clear. induction (c :: css) as [|x xs IHx]; [reflexivity|]. cbn [concat map]. rewrite app_length. cbn [list_sum fold_right]. unfold list_sum in IHx. lia.
    + intros i Hi. assert (Q : In i (concat css ++ fl)) by (apply in_or_app; now left). apply (Permutation_in i (r_perm _ _ _ _ R)) in Q. apply in_seq in Q. lia.
  - intros h n Hn. rewrite map_length, Len. rewrite nth_error_map in Hn. destruct (nth_error css h) as [c|] eqn:Ec; [|discriminate]. injection Hn as <-.
    pose proof (segment (chains t) (bucket_of hashfn (length (entry_points t))) css 0 h) as Sg. rewrite Ec in Sg. cbn [Nat.add] in Sg. unfold bucket_of in Sg. rewrite Sg.
    + rewrite map_length. symmetry. apply live_len. intros i Hi. assert (Q : In i (concat css ++ fl)) by (apply in_or_app; left; apply in_concat; exists c; split; [now apply nth_error_In in Ec|exact Hi]). apply (Permutation_in i (r_perm _ _ _ _ R)) in Q. apply in_seq in Q. lia.
    + intros j c' i d m Hj Hi E. exact (r_hash _ _ _ _ R j c' i d m Hj Hi E).
Qed.
End P.
Print Assumptions C111_raw.
Print Assumptions C111_dense.
Print Assumptions C112_chain_lengths.

Definition ex_run (ops : list (top nat)) : res (ht nat) := let! t := ht_new 2 1 in ht_exec N.of_nat Nat.eqb 0 t ops.
Example C111_ex :
  (let! t := ex_run [TAdd 5; TAdd 6; TRemove 5 true] in Ok (ht_dense t, ht_raw t)) = Ok (false, Abort) /\
  (let! t := ex_run [TAdd 5; TAdd 6; TRemove 5 true; TAdd 9] in Ok (ht_dense t, ht_raw t)) = Ok (true, Ok [9; 6]).
Proof. repeat split; vm_compute; reflexivity. Qed.
(** The elements 6 and 6 + the number of chains share a chain. *)
Example C112_ex :
  (let! t := ex_run [TAdd 5; TAdd 6; TRemove 5 true] in let n := length (entry_points t) in
   let! t := ex_run [TAdd 5; TAdd 6; TRemove 5 true; TAdd (6 + n); TAdd (2 * n)] in
   let! ls := ht_chainLengthStats t in Ok (length ls =? n, list_sum ls, firstn 8 ls)) = Ok (true, 3, [1; 2; 0; 0; 0]).
Proof. vm_compute. reflexivity. Qed.
