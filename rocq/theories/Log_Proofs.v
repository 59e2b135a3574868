(** Proofs about the model of LintelLog. *)
From Coq Require Import List Arith ZArith Lia Bool ZifyBool ZifyNat.
From Verif Require Import Common CommonFacts ListFacts StringUtil_Spec StringUtil_Model StringUtil_Proofs Log_Spec Log_Model.
Import ListNotations.
Local Open Scope Z_scope.

Lemma same_eq a b : same a b = true <-> a = b.
Proof. unfold same. destruct (list_eq_dec Z.eq_dec a b); split; congruence. Qed.
Lemma same_refl a : same a a = true.
Proof. now apply same_eq. Qed.
Lemma same_ne a b : a <> b -> same a b = false.
Proof. intros H. destruct (same a b) eqn:E; [|reflexivity]. now apply same_eq in E. Qed.
Lemma str_eqb_same a b : str_eqb a b = same a b.
Proof. apply eq_true_iff_eq. now rewrite str_eqb_eq, same_eq. Qed.
Lemma existsb_same c k : existsb (same c) k = true <-> In c k.
Proof. rewrite existsb_exists. split; [intros (x & I & E); apply same_eq in E; now subst|intros I; exists c; split; [exact I|apply same_refl]]. Qed.
Lemma existsb_same_false c k : existsb (same c) k = false <-> ~ In c k.
Proof. rewrite <- existsb_same. destruct (existsb (same c) k); split; congruence. Qed.
Lemma prefixequal_same c q : prefixequal c q = same (firstn (length q) c) q.
Proof.
  unfold prefixequal. rewrite str_eqb_same. destruct (Z.leb_spec (len q) (len c)) as [L|L]; [reflexivity|]. symmetry. cbn [andb]. apply same_ne. intros E. apply (f_equal (@length Z)) in E. rewrite firstn_length in E. lia.
Qed.
(** Wildcards. *)
Lemma wildcard_Some p q : wildcard p = Some q <-> p = q ++ [42].
Proof.
  unfold wildcard. split.
  - destruct (rev p) as [|x r] eqn:E; [discriminate|]. intros H. assert (x = 42 /\ q = rev r) as (-> & ->).
    { destruct x as [|x|x]; try discriminate. do 6 (destruct x as [x|x|]; try discriminate). injection H as <-. auto. }
    rewrite <- (rev_involutive p), E. reflexivity.
  - intros ->. rewrite rev_app_distr. cbn [rev app]. now rewrite rev_involutive.
Qed.
Lemma wildcard_model p : (negb (length p =? 0)%nat && (nth (length p - 1) p 0 =? 42)) = match wildcard p with Some _ => true | None => false end.
Proof.
  destruct (wildcard p) as [q|] eqn:E.
  - apply wildcard_Some in E. subst p. rewrite app_length. cbn [length]. replace (length q + 1 - 1)%nat with (length q) by lia. rewrite app_nth2, Nat.sub_diag by lia. cbn [nth]. lia.
  - destruct (Nat.eqb_spec (length p) 0) as [L|L]; [reflexivity|]. cbn [negb andb]. destruct (Z.eqb_spec (nth (length p - 1) p 0) 42) as [N|N]; [|reflexivity]. exfalso.
    destruct (exists_last (l := p)) as (q & x & ->); [intros ->; now cbn in L|]. rewrite app_length in N. cbn [length] in N. replace (length q + 1 - 1)%nat with (length q) in N by lia. rewrite app_nth2, Nat.sub_diag in N by lia. cbn [nth] in N. subst x.
    pose proof (proj2 (wildcard_Some (q ++ [42]) q) eq_refl). congruence.
Qed.
Lemma substr_wildcard q : substr (q ++ [42]) 0 (len (q ++ [42]) - 1) = Ok q.
Proof.
  unfold substr. rewrite app_length. cbn [length]. replace (Z.of_nat (length q + 1) <? 0) with false by lia. cbn [Z.to_nat skipn]. do 2 f_equal. replace (Z.to_nat (Z.of_nat (length q + 1) - 1)) with (length q) by lia. rewrite firstn_app, Nat.sub_diag, firstn_all. now rewrite firstn_O, app_nil_r.
Qed.

(** Known categories. *)
Lemma known_snoc h e : known (h ++ [e]) = add_known (known h) e.
Proof. unfold known. now rewrite fold_left_app. Qed.
Lemma known_nodup h : NoDup (known h).
Proof.
  induction h as [|e h IH] using rev_ind; [constructor|]. rewrite known_snoc. unfold add_known. destruct (used e) as [c|]; [|exact IH]. destruct (existsb (same c) (known h)) eqn:E; [exact IH|].
  apply existsb_same_false in E. clear - IH E. induction (known h) as [|x k IHk]; cbn [app]; [repeat constructor; tauto|]. inversion IH as [|? ? N D]; subst. constructor.
  - rewrite in_app_iff. cbn [In]. intros [I|[<-|[]]]; [tauto|apply E; now left].
  - apply IHk; [exact D|]. intros I. apply E. now right.
Qed.
Lemma uses_iff c e : uses c e = true <-> used e = Some c.
Proof. unfold uses. destruct (used e) as [c'|]; [rewrite same_eq|]; split; congruence. Qed.
Lemma in_known c h : In c (known h) <-> exists e, In e h /\ uses c e = true.
Proof.
  induction h as [|e h IH] using rev_ind; [split; [contradiction|intros (? & [] & _)]|]. rewrite known_snoc. unfold add_known.
  assert (Q : (exists e0, In e0 (h ++ [e]) /\ uses c e0 = true) <-> In c (known h) \/ used e = Some c).
  { rewrite IH. split.
    - intros (e0 & I & U). apply in_app_iff in I. destruct I as [I|[<-|[]]]; [left; eauto|right; now apply uses_iff].
    - intros [(e0 & I & U)|U]; [exists e0; rewrite in_app_iff; auto|exists e; rewrite in_app_iff; cbn [In]; rewrite uses_iff; auto]. }
  rewrite Q. destruct (used e) as [c'|]; [|split; [auto|intros [I|I]; [exact I|discriminate]]].
  destruct (existsb (same c') (known h)) eqn:E.
  - apply existsb_same in E. split; [auto|]. intros [I|I]; [exact I|]. injection I as <-. exact E.
  - rewrite in_app_iff. cbn [In]. split; [intros [I|[<-|[]]]; auto|intros [I|I]; [auto|injection I as <-; auto]].
Qed.
Lemma position_app c k k' : In c k -> position c (k ++ k') = position c k.
Proof. induction k as [|x k IH]; [contradiction|]. intros [->|I]; cbn [position app]; [now rewrite same_refl|]. destruct (same x c); [reflexivity|]. now rewrite IH. Qed.
Lemma position_nth c k : In c k -> nth_error k (position c k) = Some c.
Proof. induction k as [|x k IH]; [contradiction|]. intros I. cbn [position]. destruct (same x c) eqn:E; [apply same_eq in E; now subst|]. destruct I as [->|I]; [rewrite same_refl in E; discriminate|]. cbn [nth_error]. now apply IH. Qed.
Lemma position_lt c k : In c k -> (position c k < length k)%nat.
Proof. intros I. apply position_nth in I. now apply nth_error_lt in I. Qed.
Lemma position_new c k : ~ In c k -> position c (k ++ [c]) = length k.
Proof. induction k as [|x k IH]; cbn [position app length In]; [now rewrite same_refl|]. intros N. rewrite same_ne by tauto. rewrite IH by tauto. reflexivity. Qed.
Lemma nth_position c k i : NoDup k -> nth_error k i = Some c -> position c k = i.
Proof.
  intros D E. pose proof (position_nth c k (nth_error_In _ _ E)) as P. apply (proj1 (NoDup_nth_error k) D); [exact (position_lt c k (nth_error_In k i E))|congruence].
Qed.
Lemma lookup_combine c : forall k n, lookup (combine k (seq n (length k))) c = if existsb (same c) k then Some (n + position c k)%nat else None.
Proof.
  induction k as [|x k IH]; intros n; cbn [length seq combine lookup existsb position]; [reflexivity|]. rewrite str_eqb_same. destruct (same x c) eqn:E.
  - apply same_eq in E. subst x. rewrite same_refl. cbn [orb]. f_equal. lia.
  - rewrite IH. rewrite (same_ne c x) by (intros ->; now rewrite same_refl in E). cbn [orb]. destruct (existsb (same c) k); [f_equal; lia|reflexivity].
Qed.

(** Levels. *)
Lemma first_use_app c h e : In c (known h) -> first_use c (h ++ [e]) = (fst (first_use c h), snd (first_use c h) ++ [e]).
Proof.
  intros I. apply in_known in I. induction h as [|x h IH]; [destruct I as (? & [] & _)|]. cbn [app first_use]. destruct (uses c x) eqn:U; [reflexivity|].
  destruct I as (e0 & [->|I] & U0); [congruence|]. rewrite IH by eauto. now destruct (first_use c h).
Qed.
Lemma first_use_none c h : ~ In c (known h) -> first_use c h = (h, []).
Proof.
  intros N. rewrite in_known in N. induction h as [|x h IH]; [reflexivity|]. cbn [first_use]. destruct (uses c x) eqn:U; [exfalso; apply N; exists x; cbn [In]; auto|].
  rewrite IH; [reflexivity|]. intros (e & I & E). apply N. exists e. cbn [In]. auto.
Qed.
Lemma first_use_new c h e : ~ In c (known h) -> uses c e = true -> first_use c (h ++ [e]) = (h, [e]).
Proof.
  intros N U. rewrite in_known in N. induction h as [|x h IH]; cbn [app first_use]; [now rewrite U|]. destruct (uses c x) eqn:U'; [exfalso; apply N; exists x; cbn [In]; auto|].
  rewrite IH; [reflexivity|]. intros (e' & I & E). apply N. exists e'. cbn [In]. auto.
Qed.
Definition event_level (e : event) : Z := match e with Setting _ l => l | Use _ => 0 end.
Lemma level_known c h e : In c (known h) -> level (h ++ [e]) c = if sets c e then event_level e else level h c.
Proof.
  intros I. unfold level. rewrite first_use_app by exact I. destruct (first_use c h) as [b a]. cbn [fst snd]. rewrite rev_app_distr. cbn [rev app find]. destruct (sets c e) eqn:S; [|reflexivity]. destruct e; [reflexivity|discriminate].
Qed.
Lemma level_new c h e : ~ In c (known h) -> uses c e = true -> level (h ++ [e]) c = if sets c e then event_level e else level_set (find (sets c) h) 0.
Proof.
  intros N U. unfold level. rewrite first_use_new by assumption. cbn [rev app find]. destruct (sets c e) eqn:S; [|reflexivity]. destruct e; [reflexivity|discriminate].
Qed.
Definition pats (h : list event) : list (str * Z) :=
  flat_map (fun e => match e with Setting p l => match wildcard p with Some q => [(q, l)] | None => [] end | Use _ => [] end) h.
Lemma pats_snoc h e : pats (h ++ [e]) = pats h ++ pats [e].
Proof. unfold pats. apply flat_map_app. Qed.
Lemma pats_cons e h : pats (e :: h) = pats [e] ++ pats h.
Proof. unfold pats. cbn [flat_map]. now rewrite app_nil_r. Qed.
Lemma wildcards_pats h : wildcards h = length (pats h).
Proof.
  unfold wildcards. induction h as [|e h IH]; [reflexivity|]. cbn [filter]. rewrite (pats_cons e h). rewrite app_length, <- IH. unfold pats. cbn [flat_map]. rewrite app_nil_r. destruct e as [p l|c]; [|reflexivity]. destruct (wildcard p); reflexivity.
Qed.
Fixpoint first_pat (ps : list (str * Z)) (c : str) : Z :=
  match ps with [] => 0 | (q, l) :: r => if prefixequal c q then l else first_pat r c end.
Lemma find_pats c h : ~ In c (known h) -> level_set (find (sets c) h) 0 = first_pat (pats h) c.
Proof.
  rewrite in_known. induction h as [|e h IH]; intros N; [reflexivity|]. rewrite (pats_cons e h). cbn [find].
  assert (N' : ~ (exists e0, In e0 h /\ uses c e0 = true)) by (intros (e0 & I & U); apply N; exists e0; cbn [In]; auto). specialize (IH N').
  assert (U : uses c e = false) by (destruct (uses c e) eqn:U; [exfalso; apply N; exists e; cbn [In]; auto|reflexivity]).
  destruct e as [p l|c']; [|exact IH]. unfold pats at 1. cbn [flat_map sets]. rewrite app_nil_r. unfold uses, used in U. unfold matches. destruct (wildcard p) as [q|]; cbn [app first_pat].
  - rewrite prefixequal_same. destruct (same (firstn (length q) c) q); [reflexivity|exact IH].
  - rewrite U. exact IH.
Qed.

Record refines (t : spec) (s : log) : Prop := mk_refines {
  rf_c2i : c2i s = combine (known (hist t)) (seq 0 (length (known (hist t))));
  rf_levels : levels s = map (level (hist t)) (known (hist t));
  rf_pats : patterns s = pats (hist t);
  rf_cap : cap s = room t;
  rf_room : 4000 <= room t <= 800000000;
  rf_fits : Z.of_nat (length (known (hist t))) <= room t;
  rf_apps : apps s = appenders t;
  rf_warned : generated_warning s = warned t }.

Lemma upd_last {A} (l : list A) x y : upd (l ++ [x]) (length l) y = l ++ [y].
Proof. apply upd_app_mid. Qed.
Lemma set_last s l x y : levels s = l ++ [x] -> set_level s (length l) y = Ok (mk_log (c2i s) (l ++ [y]) (cap s) (moves s) (patterns s) (apps s) (generated_warning s)).
Proof. intros E. unfold set_level. rewrite E. rewrite put_ok by (rewrite app_length; cbn [length]; lia). cbn [bind]. now rewrite upd_last. Qed.
Lemma match_loop_spec c l : forall ps s, levels s = l ++ [0] -> match_loop ps c (length l) s = Ok (mk_log (c2i s) (l ++ [first_pat ps c]) (cap s) (moves s) (patterns s) (apps s) (generated_warning s)).
Proof.
  induction ps as [|[q v] ps IH]; intros s E; cbn [match_loop first_pat]; [rewrite <- E; now destruct s|]. destruct (prefixequal c q); [now apply (set_last s l 0)|now apply IH].
Qed.
Lemma combine_snoc {A B} (l : list A) (m : list B) x y : length l = length m -> combine (l ++ [x]) (m ++ [y]) = combine l m ++ [(x, y)].
Proof. revert m. induction l as [|a l IH]; intros [|b m] E; try discriminate; [reflexivity|]. cbn [app combine]. rewrite IH; [reflexivity|]. now injection E. Qed.
Lemma map_level_known h e : (forall c, In c (known h) -> sets c e = false) -> map (level (h ++ [e])) (known h) = map (level h) (known h).
Proof. intros H. apply map_ext_in. intros c I. rewrite level_known by exact I. now rewrite H. Qed.

(** A use of a category, old or new. *)
Lemma locked_old t s c : refines t s -> In c (known (hist t)) -> lockedCategoryToId s c = Ok (position c (known (hist t)), s).
Proof. intros R I. unfold lockedCategoryToId. rewrite (rf_c2i _ _ R), lookup_combine. rewrite (proj2 (existsb_same _ _) I). reflexivity. Qed.
Lemma locked_new t s c : refines t s -> ~ In c (known (hist t)) ->
  lockedCategoryToId s c =
    if Z.of_nat (length (known (hist t))) <? room t then
      Ok (length (known (hist t)), mk_log (c2i s ++ [(c, length (known (hist t)))]) (levels s ++ [level_set (find (sets c) (hist t)) 0]) (cap s) (moves s) (patterns s) (apps s) (generated_warning s))
    else Abort.
Proof.
  intros R N. unfold lockedCategoryToId. rewrite (rf_c2i _ _ R), lookup_combine. rewrite (proj2 (existsb_same_false _ _) N). rewrite <- (rf_c2i _ _ R).
  assert (L : length (levels s) = length (known (hist t))) by (rewrite (rf_levels _ _ R); apply map_length). rewrite <- L, <- (rf_cap _ _ R). cbv zeta. unfold invariant at 1. destruct (Z.ltb_spec (Z.of_nat (length (levels s))) (cap s)) as [B|B]; [|reflexivity]. cbn [bind].
  unfold resize. cbn [levels cap c2i moves patterns apps generated_warning]. replace (Z.of_nat (length (levels s)) + 1 <=? cap s) with true by lia. replace (Z.to_nat (Z.of_nat (length (levels s)) + 1) - length (levels s))%nat with 1%nat by lia. cbn [repeat]. cbn [levels patterns].
  rewrite (get_Some _ _ 0) by (rewrite nth_error_app2, Nat.sub_diag by lia; reflexivity). cbn [bind]. rewrite Z.eqb_refl. cbn [invariant bind]. rewrite match_loop_spec by reflexivity. cbn [bind c2i cap moves patterns apps generated_warning].
  rewrite (rf_pats _ _ R), find_pats by exact N. reflexivity.
Qed.
Lemma known_after_use h e c : used e = Some c -> known (h ++ [e]) = if existsb (same c) (known h) then known h else known h ++ [c].
Proof. intros U. rewrite known_snoc. unfold add_known. now rewrite U. Qed.
Lemma pats_use h e c : used e = Some c -> pats (h ++ [e]) = pats h.
Proof. intros U. rewrite pats_snoc. unfold pats at 2. cbn [flat_map]. destruct e as [p l|c']; [|apply app_nil_r]. cbn [used] in U. destruct (wildcard p); [discriminate|apply app_nil_r]. Qed.
(** Levels of the other categories after such an event. *)
Lemma sets_used e c c' : used e = Some c -> sets c' e = true -> c' = c.
Proof.
  intros U S. destruct e as [p l|x]; [|discriminate]. cbn [used sets] in *. unfold matches in S. destruct (wildcard p); [discriminate|]. injection U as <-. apply same_eq in S. congruence.
Qed.
Lemma upd_map_nodup {A B} (f g : A -> B) (k : list A) i c : NoDup k -> nth_error k i = Some c -> (forall x, In x k -> x <> c -> f x = g x) -> upd (map f k) i (g c) = map g k.
Proof.
  revert i. induction k as [|x k IH]; intros [|i] D E H; try discriminate; cbn [map upd nth_error] in *; inversion D as [|? ? N D']; subst.
  - injection E as ->. f_equal. apply map_ext_in. intros y I. apply H; [now right|]. intros ->. tauto.
  - f_equal; [apply H; [now left|intros ->; apply N; now apply nth_error_In in E]|]. apply IH; [exact D'|exact E|]. intros y I. apply H. now right.
Qed.
Lemma warning_spec t s id : refines t s -> (id <= length (known (hist t)))%nat ->
  maybeCategoryLimitWarning s id =
    (let near := (4 * room t <=? 5 * Z.of_nat id) && negb (warned t) in
     (mk_log (c2i s) (levels s) (cap s) (moves s) (patterns s) (apps s) (warned t || near), if near then deliver (appenders t) Warn (NearLimit (Z.of_nat id) (room t)) else [])).
Proof.
  intros R L. unfold maybeCategoryLimitWarning. pose proof (rf_room _ _ R) as B. pose proof (rf_fits _ _ R) as F. rewrite (rf_cap _ _ R). rewrite Z.mod_small by lia. rewrite (rf_warned _ _ R).
  replace (room t <=? Z.of_nat id * 5 / 4) with (4 * room t <=? 5 * Z.of_nat id) by (apply eq_true_iff_eq; rewrite !Z.leb_le; Z.to_euclidean_division_equations; lia).
  cbv zeta. destruct (4 * room t <=? 5 * Z.of_nat id); cbn [andb]; [|rewrite orb_false_r, <- (rf_warned _ _ R), <- (rf_cap _ _ R); destruct s; reflexivity].
  destruct (warned t) eqn:W; cbn [negb orb]; [rewrite <- (rf_cap _ _ R); destruct s; cbn in *; rewrite <- W, <- (rf_warned _ _ R); reflexivity|]. f_equal. unfold do_log. cbn [apps cap]. rewrite (rf_apps _ _ R). unfold deliver. destruct (appenders t) as [|a l]; [reflexivity|].
  generalize (a :: l). clear. intros l. induction l as [|a l IH]; [reflexivity|]. cbn [appenders_loop map]. now rewrite IH.
Qed.
Definition with_hist (t : spec) (h : list event) : spec := mk_spec h (room t) (appenders t) (warned t).
Lemma locked_refines t s c : refines t s -> (In c (known (hist t)) \/ Z.of_nat (length (known (hist t))) < room t) ->
  exists s', lockedCategoryToId s c = Ok (position c (known (hist t ++ [Use c])), s') /\ refines (with_hist t (hist t ++ [Use c])) s' /\ moves s' = moves s.
Proof.
  intros R H. destruct (in_dec (list_eq_dec Z.eq_dec) c (known (hist t))) as [I|N].
  - exists s. rewrite (locked_old t s c R I). rewrite (known_after_use _ (Use c) c eq_refl), (proj2 (existsb_same _ _) I). split; [reflexivity|]. split; [|reflexivity]. destruct R. unfold with_hist. constructor; cbn [hist room appenders warned]; auto.
    + rewrite (known_after_use _ (Use c) c eq_refl), (proj2 (existsb_same _ _) I). assumption.
    + rewrite (known_after_use _ (Use c) c eq_refl), (proj2 (existsb_same _ _) I). rewrite map_level_known by reflexivity. assumption.
    + rewrite (pats_use _ (Use c) c eq_refl). assumption.
    + rewrite (known_after_use _ (Use c) c eq_refl), (proj2 (existsb_same _ _) I). assumption.
  - destruct H as [H|H]; [contradiction|]. rewrite (locked_new t s c R N). replace (Z.of_nat (length (known (hist t))) <? room t) with true by lia. rewrite (known_after_use _ (Use c) c eq_refl), (proj2 (existsb_same_false _ _) N).
    rewrite position_new by exact N. eexists. split; [reflexivity|]. cbn [moves]. split; [|reflexivity]. destruct R. unfold with_hist.
    assert (K : known (hist t ++ [Use c]) = known (hist t) ++ [c]) by (now rewrite (known_after_use _ (Use c) c eq_refl), (proj2 (existsb_same_false _ _) N)).
    constructor; cbn [hist room appenders warned c2i levels patterns cap apps generated_warning]; rewrite ?K; auto.
    + rewrite rf_c2i0, app_length. cbn [length]. rewrite seq_app. cbn [seq Nat.add]. rewrite combine_snoc by (now rewrite seq_length). reflexivity.
    + rewrite rf_levels0, map_app. cbn [map]. rewrite level_new by (try exact N; unfold uses; cbn [used]; apply same_refl). cbn [sets]. rewrite map_level_known by reflexivity. reflexivity.
    + rewrite (pats_use _ (Use c) c eq_refl). assumption.
    + rewrite app_length. cbn [length]. lia.
Qed.
Lemma known_setting h p l : wildcard p = None -> known (h ++ [Setting p l]) = known (h ++ [Use p]).
Proof. intros W. rewrite !known_snoc. unfold add_known. cbn [used]. now rewrite W. Qed.
Lemma in_known_use h c : In c (known (h ++ [Use c])).
Proof. apply in_known. exists (Use c). rewrite in_app_iff. cbn [In]. split; [auto|]. unfold uses. cbn [used]. apply same_refl. Qed.
Lemma level_setting_other h p l c : wildcard p = None -> In c (known (h ++ [Use p])) -> c <> p -> level (h ++ [Setting p l]) c = level (h ++ [Use p]) c.
Proof.
  intros W I NE. assert (I' : In c (known h)). { rewrite (known_after_use _ (Use p) p eq_refl) in I. destruct (existsb (same p) (known h)); [exact I|]. apply in_app_iff in I. destruct I as [I|[->|[]]]; [exact I|congruence]. }
  rewrite !level_known by exact I'. cbn [sets]. unfold matches. rewrite W. rewrite same_ne by congruence. reflexivity.
Qed.
Lemma level_setting_same h p l : wildcard p = None -> level (h ++ [Setting p l]) p = l.
Proof.
  intros W. assert (S : sets p (Setting p l) = true) by (cbn [sets]; unfold matches; rewrite W; apply same_refl).
  destruct (in_dec (list_eq_dec Z.eq_dec) p (known h)) as [I|N]; [rewrite level_known, S by exact I; reflexivity|]. rewrite level_new, S by (try exact N; unfold uses; cbn [used]; rewrite W; apply same_refl). reflexivity.
Qed.
Lemma set_refines t s p l : wildcard p = None -> refines (with_hist t (hist t ++ [Use p])) s ->
  (Z.of_nat (position p (known (hist t ++ [Use p]))) <? len (levels s)) = true /\
  exists s', set_level s (position p (known (hist t ++ [Use p]))) l = Ok s' /\ refines (with_hist t (hist t ++ [Setting p l])) s' /\ moves s' = moves s.
Proof.
  intros W R. pose proof (in_known_use (hist t) p) as I. pose proof (position_lt _ _ I) as B. unfold set_level. pose proof (rf_levels _ _ R) as EL. cbn [with_hist hist] in EL. rewrite EL, map_length. split; [lia|]. rewrite put_ok by (rewrite map_length; exact B). cbn [bind]. eexists. split; [reflexivity|]. split; [|reflexivity].
  destruct R. cbn [with_hist hist room appenders warned] in *. constructor; cbn [hist room appenders warned c2i levels patterns cap apps generated_warning with_hist]; rewrite ?(known_setting _ _ _ W); auto.
  - rewrite <- (level_setting_same (hist t) p l W) at 1. apply (upd_map_nodup _ _ _ _ p); [apply known_nodup|now apply position_nth|]. intros c Ic NE. symmetry. now apply level_setting_other.
  - rewrite rf_pats0. rewrite (pats_use _ (Use p) p eq_refl), (pats_use _ (Setting p l) p); [reflexivity|]. cbn [used]. now rewrite W.
Qed.
Lemma with_warning t s w : refines t s -> refines (mk_spec (hist t) (room t) (appenders t) w) (mk_log (c2i s) (levels s) (cap s) (moves s) (patterns s) (apps s) w).
Proof. intros []. constructor; cbn [hist room appenders warned c2i levels patterns cap apps generated_warning]; auto. Qed.

Definition use_result {A} (r : res (spec * list output)) (m : res A) (P : spec -> list output -> A -> Prop) : Prop :=
  match r with Ok (t, o) => exists a, m = Ok a /\ P t o a | Abort => m = Abort | _ => True end.
Lemma category_refines t s c : refines t s ->
  use_result (spec_use t (Use c) c) (categoryToId s c)
    (fun t' o a => a = (position c (known (hist t')), snd (fst a), o) /\ refines t' (snd (fst a)) /\ moves (snd (fst a)) = moves s /\ In c (known (hist t'))).
Proof.
  intros R. unfold spec_use, use_result. destruct (existsb (same c) (known (hist t)) || (Z.of_nat (length (known (hist t))) <? room t)) eqn:C.
  - destruct (locked_refines t s c R) as (s1 & E1 & R1 & M1); [apply orb_true_iff in C; destruct C as [C|C]; [left; now apply existsb_same|right; lia]|].
    unfold categoryToId. rewrite E1. cbn [bind]. rewrite (warning_spec _ s1 _ R1) by (cbn [with_hist hist]; pose proof (position_lt _ _ (in_known_use (hist t) c)); lia). cbn [with_hist room warned appenders hist]. cbv zeta.
    eexists. split; [reflexivity|]. cbn [fst snd hist]. split; [reflexivity|]. split; [exact (with_warning _ _ _ R1)|]. split; [exact M1|apply in_known_use].
  - apply orb_false_iff in C. destruct C as (C1 & C2). unfold categoryToId. rewrite (locked_new t s c R) by (now apply existsb_same_false). rewrite C2. reflexivity.
Qed.
Lemma setting_refines t s p l : refines t s -> wildcard p = None ->
  use_result (spec_use t (Setting p l) p) (setDebugLevel s p l) (fun t' o a => a = (fst a, o) /\ refines t' (fst a) /\ moves (fst a) = moves s).
Proof.
  intros R W. unfold spec_use, use_result, setDebugLevel. rewrite wildcard_model, W. destruct (existsb (same p) (known (hist t)) || (Z.of_nat (length (known (hist t))) <? room t)) eqn:C.
  - destruct (locked_refines t s p R) as (s1 & E1 & R1 & M1); [apply orb_true_iff in C; destruct C as [C|C]; [left; now apply existsb_same|right; lia]|].
    rewrite E1. cbn [bind]. destruct (set_refines t s1 p l W R1) as (B & s2 & E2 & R2 & M2). rewrite B. cbn [invariant bind]. rewrite E2. cbn [bind]. rewrite <- (known_setting (hist t) p l W). rewrite (warning_spec _ s2 _ R2).
    2: { cbn [with_hist hist]. rewrite (known_setting _ _ _ W). pose proof (position_lt _ _ (in_known_use (hist t) p)). lia. }
    cbn [with_hist room warned appenders hist]. cbv zeta. eexists. split; [reflexivity|]. cbn [fst snd]. split; [reflexivity|]. split; [exact (with_warning _ _ _ R2)|]. cbn [moves]. congruence.
  - apply orb_false_iff in C. destruct C as (C1 & C2). rewrite (locked_new t s p R) by (now apply existsb_same_false). rewrite C2. reflexivity.
Qed.
(** A prefix setting. *)
Lemma update_loop_spec q l : forall k n s, (forall i, (i < length k)%nat -> (n + i < length (levels s))%nat) ->
  exists ls, update_loop (combine k (seq n (length k))) q l s = Ok (mk_log (c2i s) ls (cap s) (moves s) (patterns s) (apps s) (generated_warning s)) /\ length ls = length (levels s) /\
    (forall i, (i < n)%nat -> nth_error ls i = nth_error (levels s) i) /\
    (forall i c, nth_error k i = Some c -> nth_error ls (n + i) = if prefixequal c q then Some l else nth_error (levels s) (n + i)).
Proof.
  induction k as [|c k IH]; intros n s H; cbn [length seq combine update_loop].
  - exists (levels s). split; [now destruct s|]. split; [reflexivity|]. split; [reflexivity|]. intros [|i] c E; discriminate.
  - assert (S1 : exists s1, (if prefixequal c q then set_level s n l else Ok s) = Ok s1 /\ c2i s1 = c2i s /\ cap s1 = cap s /\ moves s1 = moves s /\ patterns s1 = patterns s /\ apps s1 = apps s /\ generated_warning s1 = generated_warning s
        /\ length (levels s1) = length (levels s) /\ nth_error (levels s1) n = (if prefixequal c q then Some l else nth_error (levels s) n) /\ forall i, i <> n -> nth_error (levels s1) i = nth_error (levels s) i).
    { specialize (H 0%nat ltac:(cbn [length]; lia)). destruct (prefixequal c q); [|exists s; repeat split; auto]. unfold set_level. rewrite put_ok by lia. cbn [bind]. eexists. split; [reflexivity|]. cbn [c2i levels cap moves patterns apps generated_warning]. repeat split; [apply length_upd|apply nth_error_upd_eq; lia|]. intros i NE. apply nth_error_upd_neq. congruence. }
    destruct S1 as (s1 & -> & F1 & F2 & F3 & F4 & F5 & F6 & L1 & N1 & O1). cbn [bind]. destruct (IH (S n) s1) as (ls & E & L & A & B).
    { intros i Hi. rewrite L1. specialize (H (S i) ltac:(cbn [length]; lia)). lia. }
    exists ls. rewrite E, F1, F2, F3, F4, F5, F6. split; [reflexivity|]. split; [congruence|]. split.
    + intros i Hi. rewrite A by lia. apply O1. lia.
    + intros [|i] c' Ec; cbn [nth_error] in Ec.
      * injection Ec as <-. rewrite Nat.add_0_r, A by lia. exact N1.
      * replace (n + S i)%nat with (S n + i)%nat by lia. rewrite (B i c' Ec). rewrite O1 by lia. reflexivity.
Qed.
Lemma wildcard_refines t s p q l : refines t s -> wildcard p = Some q ->
  if (wildcards (hist t) <? 100)%nat then exists s', setDebugLevel s p l = Ok (s', []) /\ refines (with_hist t (hist t ++ [Setting p l])) s' /\ moves s' = moves s
  else setDebugLevel s p l = Abort.
Proof.
  intros R W. unfold setDebugLevel. rewrite wildcard_model, W. rewrite (rf_pats _ _ R), wildcards_pats. unfold pattern_cap. destruct (Nat.ltb_spec (length (pats (hist t))) 100) as [B|B].
  2: { replace (len (pats (hist t)) <? 100) with false by lia. reflexivity. }
  replace (len (pats (hist t)) <? 100) with true by lia. cbn [invariant bind]. rewrite (proj1 (wildcard_Some p q) W). rewrite substr_wildcard. cbn [bind c2i].
  assert (K : known (hist t ++ [Setting (q ++ [42]) l]) = known (hist t)). { rewrite known_snoc. unfold add_known. cbn [used]. now rewrite (proj2 (wildcard_Some (q ++ [42]) q) eq_refl). }
  cbv zeta. cbn [c2i]. match goal with |- context [update_loop _ q l ?s0] => change (c2i s) with (c2i s0) at 1; replace (update_loop (c2i s0) q l s0) with (update_loop (combine (known (hist t)) (seq 0 (length (known (hist t))))) q l s0) by (now rewrite <- (rf_c2i _ _ R)); destruct (update_loop_spec q l (known (hist t)) 0 s0) as (ls & -> & L & _ & A) end.
  { cbn [levels]. rewrite (rf_levels _ _ R), map_length. intros i Hi. lia. }
  cbn [bind c2i levels cap moves patterns apps generated_warning] in *. eexists. split; [reflexivity|]. split; [|reflexivity]. destruct R. constructor; cbn [hist room appenders warned c2i levels patterns cap apps generated_warning with_hist]; rewrite ?K; auto.
  - apply nth_error_ext. intros i. destruct (nth_error (known (hist t)) i) as [c|] eqn:E.
    + specialize (A i c E). cbn [Nat.add] in A. rewrite A, nth_error_map, E. cbn [option_map]. pose proof (nth_error_In _ _ E) as I. rewrite level_known by exact I. cbn [sets event_level]. unfold matches. rewrite (proj2 (wildcard_Some (q ++ [42]) q) eq_refl). rewrite <- prefixequal_same.
      destruct (prefixequal c q); [reflexivity|]. rewrite rf_levels0, nth_error_map, E. reflexivity.
    + rewrite nth_error_map, E. cbn [option_map]. apply nth_error_None. apply nth_error_None in E. rewrite L, rf_levels0, map_length. lia.
  - rewrite pats_snoc. unfold pats at 3. cbn [flat_map]. rewrite (proj2 (wildcard_Some (q ++ [42]) q) eq_refl). cbn [app]. congruence.
Qed.
Lemma known_refines : forall cs t s, refines t s ->
  use_result (spec_uses t cs) (setKnownCategories s cs) (fun t' o a => a = (fst a, o) /\ refines t' (fst a) /\ moves (fst a) = moves s).
Proof.
  induction cs as [|c cs IH]; intros t s R; cbn [spec_uses setKnownCategories].
  - cbn [use_result]. exists (s, []). cbn [fst]. auto.
  - pose proof (category_refines t s c R) as H. destruct (spec_use t (Use c) c) as [[t1 o1]| | |] eqn:E; cbn [use_result bind] in *; [|rewrite H; reflexivity|exact I|exact I].
    destruct H as ([[id s1] o] & -> & Ha & R1 & M1 & _). cbn [fst snd] in *. injection Ha as -> ->. cbn [bind]. specialize (IH t1 s1 R1). destruct (spec_uses t1 cs) as [[t2 o2]| | |]; cbn [use_result bind] in *; [|rewrite IH; reflexivity|exact I|exact I].
    destruct IH as ([s2 o'] & -> & Hb & R2 & M2). cbn [fst] in *. injection Hb as ->. cbn [bind]. eexists. split; [reflexivity|]. cbn [fst]. split; [reflexivity|]. split; [exact R2|congruence].
Qed.
Lemma level_refines t s id : refines t s -> get (levels s) id = spec_level t id.
Proof. intros R. unfold spec_level, get. rewrite (rf_levels _ _ R), nth_error_map. now destruct (nth_error (known (hist t)) id). Qed.
Lemma step_refines t s o : refines t s ->
  match spec_step t o with
  | Ok (t', a) => exists s', log_step s o = Ok (s', a) /\ refines t' s' /\ (match o with OReserve _ => True | _ => moves s' = moves s end)
  | Abort => log_step s o = Abort
  | UB => True
  | Fuel => False
  end.
Proof.
  intros R. destruct o as [p l|c l|c|cs|id|id l|n|a|ty m]; cbn [spec_step log_step].
  - destruct (wildcard p) as [q|] eqn:W.
    + pose proof (wildcard_refines t s p q l R W) as H. destruct (wildcards (hist t) <? 100)%nat; [|now rewrite H]. destruct H as (s' & -> & R' & M). cbn [bind]. eauto.
    + pose proof (setting_refines t s p l R W) as H. unfold spec_use in *. destruct (existsb (same p) (known (hist t)) || (Z.of_nat (length (known (hist t))) <? room t)); cbn [use_result bind] in *; [|now rewrite H]. destruct H as ([s' o] & -> & Ha & R' & M). cbn [fst] in *. injection Ha as ->. cbn [bind]. eauto.
  - pose proof (category_refines t s c R) as H. unfold spec_use in *. destruct (existsb (same c) (known (hist t)) || (Z.of_nat (length (known (hist t))) <? room t)); cbn [use_result bind] in *; [|unfold wouldDebug; now rewrite H].
    destruct H as ([[id s'] o] & E & Ha & R' & M & Ic). cbn [fst snd] in *. injection Ha as -> ->. unfold wouldDebug. rewrite E. cbn [bind]. rewrite (level_refines _ _ _ R'). unfold spec_level. cbn [hist] in *. rewrite position_nth by exact Ic. cbn [bind]. eauto.
  - pose proof (category_refines t s c R) as H. unfold spec_use in *. destruct (existsb (same c) (known (hist t)) || (Z.of_nat (length (known (hist t))) <? room t)); cbn [use_result bind] in *; [|now rewrite H].
    destruct H as ([[id s'] o] & E & Ha & R' & M & Ic). cbn [fst snd] in *. injection Ha as -> ->. rewrite E. cbn [bind]. eauto.
  - pose proof (known_refines cs t s R) as H. assert (F : spec_uses t cs <> UB /\ spec_uses t cs <> Fuel).
    { clear. revert t. induction cs as [|c cs IH]; intros t; cbn [spec_uses]; [split; discriminate|]. unfold spec_use. destruct (_ || _); cbn [bind]; [|split; discriminate]. match goal with |- context [spec_uses ?x cs] => specialize (IH x); destruct (spec_uses x cs) as [[]| | |] end; cbn [bind]; split; try discriminate; tauto. }
    destruct (spec_uses t cs) as [[t' o]| | |]; cbn [use_result bind] in *; [|now rewrite H|tauto|tauto]. destruct H as ([s' o'] & -> & Ha & R' & M). cbn [fst] in *. injection Ha as ->. cbn [bind]. eauto.
  - rewrite (level_refines _ _ _ R). unfold spec_level. destruct (nth_error (known (hist t)) id); cbn [bind]; [|exact I]. eauto.
  - rewrite (level_refines _ _ _ R). unfold spec_level. destruct (nth_error (known (hist t)) id); cbn [bind]; [|exact I]. eauto.
  - destruct (Z.ltb_spec 800000000 n) as [Hn|Hn]; [exact I|]. unfold reserveCategories. replace (len (levels s)) with (Z.of_nat (length (known (hist t)))) by (rewrite (rf_levels _ _ R), map_length; reflexivity). destruct (Z.leb_spec (Z.of_nat (length (known (hist t)))) n) as [L|L]; cbn [invariant bind]; [|reflexivity].
    eexists. split; [reflexivity|]. split; [|exact I]. destruct R. rewrite rf_cap0. destruct (Z.ltb_spec (room t) n) as [G|G]; constructor; cbn [hist room appenders warned c2i levels patterns cap apps generated_warning]; auto; lia.
  - eexists. split; [reflexivity|]. split; [|reflexivity]. destruct R. constructor; cbn [addAppender hist room appenders warned c2i levels patterns cap apps generated_warning]; auto. congruence.
  - eexists. split; [|split; [exact R|reflexivity]]. do 3 f_equal. unfold do_log. rewrite (rf_apps _ _ R). unfold deliver. destruct (appenders t) as [|a l]; [reflexivity|]. generalize (a :: l). clear. intros l. induction l as [|a l IH]; [reflexivity|]. cbn [appenders_loop map]. now rewrite IH.
Qed.
Lemma new_refines : refines spec_new log_new.
Proof. constructor; cbn; auto; lia. Qed.
