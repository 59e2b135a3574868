(** C104: Matrix as a container. *)
From Coq Require Import List Arith ZArith Lia Bool ZifyBool ZifyNat.
From Verif Require Import Common CommonFacts MatMem_Model MatMem_Spec.
Import ListNotations.
Open Scope Z_scope.

Section P.
Context {V : Type} (zero nan : V) (is_nan : V -> bool) (debug : bool).
Hypothesis nan_is_nan : is_nan nan = true.
Notation state := (state V).
Notation table := (@table V).

(** the matrix [m] with its array [a] is [t] *)
Definition rep (a : list V) (m : mat) (t : table) : Prop :=
  nrows m = rows t /\ ncols m = cols t /\ 0 <= rows t /\ 0 <= cols t /\ rows t * cols t < 2 ^ 32 /\ Z.of_nat (length a) = rows t * cols t /\
  forall r c, 0 <= r < rows t -> 0 <= c < cols t -> nth_error a (Z.to_nat (r * cols t + c)) = Some (elem t r c).
Definition obj_ok (h : heap V) (om : option mat) (ot : option table) : Prop :=
  match om, ot with
  | None, None => True
  | Some m, Some t => exists a, nth_error h (data m) = Some (Some a) /\ rep a m t
  | _, _ => False
  end.
Definition inv (s : state) (ts : list (option table)) : Prop :=
  Forall2 (obj_ok (arrays s)) (mats s) ts /\
  (forall i j m m', nth_error (mats s) i = Some (Some m) -> nth_error (mats s) j = Some (Some m') -> data m = data m' -> i = j).

Lemma nupd {A} (l : list A) i j a : nth_error (upd l i a) j = if (i =? j)%nat then option_map (fun _ => a) (nth_error l j) else nth_error l j.
Proof. revert i j. induction l as [|x l IH]; intros [|i] [|j]; cbn; auto. now destruct (i =? j)%nat. Qed.
Lemma F2_nth {A B} (R : A -> B -> Prop) l l' : Forall2 R l l' -> forall i, match nth_error l i, nth_error l' i with Some x, Some y => R x y | None, None => True | _, _ => False end.
Proof. induction 1 as [|x y l l' H F IH]; intros [|i]; [exact Logic.I|exact Logic.I|exact H|exact (IH i)]. Qed.
Lemma F2_of_nth {A B} (R : A -> B -> Prop) : forall l l', (forall i, match nth_error l i, nth_error l' i with Some x, Some y => R x y | None, None => True | _, _ => False end) -> Forall2 R l l'.
Proof.
  induction l as [|x l IH]; intros [|y l'] H; [constructor|specialize (H 0%nat); cbn in H; contradiction|specialize (H 0%nat); cbn in H; contradiction|].
  constructor; [exact (H 0%nat)|]. apply IH. intros i. exact (H (S i)).
Qed.
Lemma live_inv s ts i t : inv s ts -> nth_error ts i = Some (Some t) -> exists m a, nth_error (mats s) i = Some (Some m) /\ nth_error (arrays s) (data m) = Some (Some a) /\ rep a m t.
Proof. intros (F & _) E. pose proof (F2_nth _ _ _ F i) as H. rewrite E in H. destruct (nth_error (mats s) i) as [[m|]|]; cbn in H; try contradiction. destruct H as (a & Ha & R). eauto. Qed.
(** the array of one living matrix is replaced *)
Lemma inv_write s ts i m t a a' t' : inv s ts -> nth_error (mats s) i = Some (Some m) -> nth_error ts i = Some (Some t) -> nth_error (arrays s) (data m) = Some (Some a) -> rep a' m t' ->
  inv (mk_state V (upd (arrays s) (data m) (Some a')) (mats s)) (upd ts i (Some t')).
Proof.
  intros (F & D) Em Et Ea R. split; [|exact D]. cbn [arrays mats]. apply F2_of_nth. intros j. pose proof (F2_nth _ _ _ F j) as H. rewrite nupd. destruct (Nat.eq_dec j i) as [->|N].
  - rewrite Et, Em in *. rewrite Nat.eqb_refl. cbn [option_map]. cbn [obj_ok]. exists a'. split; [|exact R]. rewrite nupd, Ea, Nat.eqb_refl. reflexivity.
  - assert (Q : (i =? j)%nat = false) by (apply Nat.eqb_neq; congruence). rewrite Q. destruct (nth_error (mats s) j) as [[mj|]|] eqn:Ej; destruct (nth_error ts j) as [[tj|]|] eqn:Etj; cbn in *; auto.
    destruct H as (b & Eb & Rb). exists b. split; [|exact Rb]. rewrite nupd. destruct (Nat.eqb_spec (data m) (data mj)) as [Q2|Q2]; [exfalso; apply N; symmetry; now apply (D i j m mj)|exact Eb].
Qed.
Lemma rep_zeros h r c : size_ok r c = true -> rep (repeat zero (Z.to_nat (u32 (r * c)))) (mk_mat h r c) (zeros zero r c).
Proof.
  unfold size_ok. intros H. assert (B : 0 <= r /\ 0 <= c /\ r * c < 2 ^ 32) by lia. destruct B as (B1 & B2 & B3). unfold rep, zeros, u32. cbn [nrows ncols rows cols elem]. rewrite Z.mod_small by nia. rewrite repeat_length.
  repeat (split; [first [reflexivity|lia|nia]|]). intros row col Hr Hc. apply nth_error_repeat. nia.
Qed.
Lemma fresh s ts i m : inv s ts -> nth_error (mats s) i = Some (Some m) -> (data m < length (arrays s))%nat.
Proof. intros (F & _) E. pose proof (F2_nth _ _ _ F i) as H. rewrite E in H. destruct (nth_error ts i) as [[t|]|]; cbn in H; try contradiction. destruct H as (a & Ha & _). apply nth_error_Some. congruence. Qed.
Lemma obj_more h x om ot : obj_ok h om ot -> obj_ok (h ++ [x]) om ot.
Proof. destruct om as [m|], ot as [t|]; cbn; auto. intros (a & E & R). exists a. split; [|exact R]. rewrite nth_error_app1; [exact E|]. apply nth_error_Some. congruence. Qed.

Lemma index_lt (t : table) r c : 0 <= r < rows t -> 0 <= c < cols t -> 0 <= r * cols t + c < rows t * cols t.
Proof. nia. Qed.
Lemma index_inj (C r c r' c' : Z) : 0 <= c < C -> 0 <= c' < C -> r * C + c = r' * C + c' -> r = r' /\ c = c'.
Proof. intros H H' E. assert (r = r') by nia. subst. lia. Qed.
Lemma index_ok m t row col a : rep a m t -> 0 <= row < rows t -> 0 <= col < cols t -> index m row col = Z.to_nat (row * cols t + col) /\ (index m row col < length a)%nat.
Proof.
  intros (E1 & E2 & P1 & P2 & P3 & L & _) Hr Hc. pose proof (index_lt t row col Hr Hc) as I. unfold index, u32. rewrite E2, Z.mod_small by lia. split; [reflexivity|]. lia.
Qed.
Lemma rep_replace a m t row col v : rep a m t -> 0 <= row < rows t -> 0 <= col < cols t -> rep (upd a (index m row col) v) m (replace t row col v).
Proof.
  intros R Hr Hc. destruct (index_ok m t row col a R Hr Hc) as (Ei & Li). destruct R as (E1 & E2 & P1 & P2 & P3 & L & H). unfold rep, replace. cbn [rows cols elem]. rewrite length_upd.
  repeat (split; [assumption|]). intros r c Hr' Hc'. rewrite nupd, Ei. pose proof (index_lt t row col Hr Hc). pose proof (index_lt t r c Hr' Hc'). rewrite (H r c Hr' Hc').
  destruct (Z.eqb_spec r row) as [->|N1]; [destruct (Z.eqb_spec c col) as [->|N2]|]; cbn [andb].
  - now rewrite Nat.eqb_refl.
  - destruct (Nat.eqb_spec (Z.to_nat (row * cols t + col)) (Z.to_nat (row * cols t + c))); [lia|reflexivity].
  - destruct (Nat.eqb_spec (Z.to_nat (row * cols t + col)) (Z.to_nat (r * cols t + c))) as [Q|Q]; [|reflexivity]. exfalso. apply N1. assert (Q' : row * cols t + col = r * cols t + c) by lia. destruct (index_inj _ _ _ _ _ Hc Hc' Q'). congruence.
Qed.
Lemma set_ok s ts i t row col v : inv s ts -> nth_error ts i = Some (Some t) -> 0 <= row < rows t -> 0 <= col < cols t ->
  exists s', set V debug s i row col v = Ok s' /\ inv s' (upd ts i (Some (replace t row col v))) /\ mats s' = mats s /\ there (arrays s') = there (arrays s).
Proof.
  intros I Et Hr Hc. destruct (live_inv s ts i t I Et) as (m & a & Em & Ea & R). destruct (index_ok m t row col a R Hr Hc) as (Ei & Li).
  unfold set, live. rewrite Em. cbn [bind]. assert (CK : check debug m row col = Ok tt).
  { unfold check. destruct debug; [|reflexivity]. destruct R as (-> & -> & _). unfold invariant. replace ((row <? rows t) && (col <? cols t)) with true by lia. reflexivity. }
  rewrite CK. cbn [bind]. unfold array. rewrite Ea. cbn [bind]. rewrite put_ok by exact Li. cbn [bind]. eexists. split; [reflexivity|]. split; [|split; [reflexivity|]].
  - apply (inv_write s ts i m t a); auto. now apply rep_replace.
  - cbn [arrays]. clear - Ea. revert Ea. generalize (data m). unfold there. induction (arrays s) as [|o h IH]; intros [|k] E; try discriminate; cbn in *; [injection E as ->; reflexivity|]. specialize (IH k E). destruct o; cbn; lia.
Qed.
(** the elements from column [c0] on are stored *)
Definition part_row (t : table) (row c0 : Z) (vs : list V) : table :=
  mk_table (rows t) (cols t) (fun r c => if (r =? row) && (c0 <=? c) then nth (Z.to_nat (c - c0)) vs (elem t r c) else elem t r c).
Definition same_table (t t' : table) : Prop := rows t = rows t' /\ cols t = cols t' /\ forall r c, 0 <= c < cols t -> elem t r c = elem t' r c.
Lemma rep_same a m t t' : same_table t t' -> rep a m t -> rep a m t'.
Proof. intros (E1 & E2 & E3) (H1 & H2 & H3 & H4 & H5 & H6 & H7). unfold rep. rewrite <- E1, <- E2. repeat (split; [assumption|]). intros r c Hr Hc. rewrite <- E3 by exact Hc. now apply H7. Qed.
Lemma inv_same s ts i t t' : same_table t t' -> nth_error ts i = Some (Some t) -> inv s ts -> inv s (upd ts i (Some t')).
Proof.
  intros E Et (F & D). split; [|exact D]. apply F2_of_nth. intros j. pose proof (F2_nth _ _ _ F j) as H. rewrite nupd. destruct (Nat.eqb_spec i j) as [<-|N]; [|exact H].
  rewrite Et in *. destruct (nth_error (mats s) i) as [[m|]|]; cbn in *; try contradiction. destruct H as (a & Ea & R). exists a. split; [exact Ea|]. now apply (rep_same a m t).
Qed.
Lemma upd_upd {A} (l : list A) i x y : upd (upd l i x) i y = upd l i y.
Proof. revert i. induction l as [|z l IH]; intros [|i]; cbn; auto. now rewrite IH. Qed.
Lemma setRow_ok i row rest : forall vs s ts t c0, inv s ts -> nth_error ts i = Some (Some t) -> 0 <= row < rows t -> 0 <= c0 -> c0 + Z.of_nat (length vs) = cols t ->
  exists s', setRow_loop V debug s i row c0 (length vs) (vs ++ rest) = Ok s' /\ inv s' (upd ts i (Some (part_row t row c0 vs))) /\ mats s' = mats s /\ there (arrays s') = there (arrays s).
Proof.
  induction vs as [|v vs IH]; intros s ts t c0 I Et Hr H0 L.
  - cbn [length setRow_loop]. exists s. split; [reflexivity|]. split; [|auto]. cbn [length] in L. apply (inv_same s ts i t); [|exact Et|exact I]. unfold same_table, part_row. cbn [rows cols elem]. split; [reflexivity|]. split; [reflexivity|]. intros r c Hc. replace (c0 <=? c) with false by lia. now rewrite andb_false_r.
  - cbn [length setRow_loop app]. cbn [length] in L. destruct (set_ok s ts i t row c0 v I Et Hr ltac:(lia)) as (s1 & E1 & I1 & M1 & T1). rewrite E1. cbn [bind].
    assert (Et1 : nth_error (upd ts i (Some (replace t row c0 v))) i = Some (Some (replace t row c0 v))) by (rewrite nupd, Et, Nat.eqb_refl; reflexivity).
    destruct (IH s1 _ (replace t row c0 v) (c0 + 1) I1 Et1 Hr ltac:(lia) ltac:(cbn [cols replace]; lia)) as (s2 & E2 & I2 & M2 & T2). exists s2. split; [exact E2|]. split; [|split; congruence].
    rewrite upd_upd in I2. rewrite <- (upd_upd ts i (Some (part_row (replace t row c0 v) row (c0 + 1) vs))). apply (inv_same s2 _ i (part_row (replace t row c0 v) row (c0 + 1) vs)); [| |exact I2].
    + unfold same_table, part_row, replace. cbn [rows cols elem]. split; [reflexivity|]. split; [reflexivity|]. intros r c Hc. destruct (Z.eqb_spec r row) as [->|N]; cbn [andb]; [|reflexivity].
      destruct (Z.leb_spec (c0 + 1) c) as [L1|L1].
      * replace (c0 <=? c) with true by lia. replace (Z.to_nat (c - c0)) with (S (Z.to_nat (c - (c0 + 1)))) by lia. cbn [nth]. destruct (Z.eqb_spec c c0); [lia|reflexivity].
      * destruct (Z.eqb_spec c c0) as [->|N]; [rewrite Z.leb_refl, Z.sub_diag; reflexivity|]. replace (c0 <=? c) with false by lia. reflexivity.
    + rewrite nupd, Et, Nat.eqb_refl. reflexivity.
Qed.
Lemma there_upd_none {A} (l : list (option A)) i x : nth_error l i = Some (Some x) -> there l = S (there (upd l i None)).
Proof. unfold there. revert i. induction l as [|o l IH]; intros [|i] E; try discriminate; cbn in *; [injection E as ->; reflexivity|]. specialize (IH i E). destruct o; cbn; lia. Qed.
Lemma there_upd_some {A} (l : list (option A)) i x y : nth_error l i = Some (Some x) -> there (upd l i (Some y)) = there l.
Proof. unfold there. revert i. induction l as [|o l IH]; intros [|i] E; try discriminate; cbn in *; [injection E as ->; reflexivity|]. specialize (IH i E). destruct o; cbn; lia. Qed.
Lemma there_app {A} (l l' : list (option A)) : there (l ++ l') = (there l + there l')%nat.
Proof. unfold there. now rewrite filter_app, app_length. Qed.

(** one operation *)
Definition leak (o : op V) : nat := match o with Resize _ _ _ => 1 | _ => 0 end.
Lemma step_ok s ts o ts' a : inv s ts -> tstep zero ts o = Ok (ts', a) -> exists s', step V zero debug nan is_nan s o = Ok (s', a) /\ inv s' ts' /\
  (there (arrays s') + there (mats s) = there (arrays s) + there (mats s') + leak o)%nat.
Proof.
  intros I. assert (AT : forall i (k : table -> res (list (option table) * option V)), (let! t := match nth_error ts i with Some (Some t) => Ok t | _ => UB end in k t) = Ok (ts', a) -> exists t, nth_error ts i = Some (Some t) /\ k t = Ok (ts', a)).
  { intros i k E. destruct (nth_error ts i) as [[t|]|]; try discriminate. eauto. }
  destruct o as [r c|i r c|i row col v|i row col|i row vs|i|i]; cbn [tstep step leak].
  - destruct (size_ok r c) eqn:SZ; [|discriminate]. intros E. injection E as <- <-. cbn [resize]. eexists. split; [reflexivity|]. pose proof I as (F & D). cbn [arrays mats]. split; [split; cbn [arrays mats]|].
    + apply Forall2_app; [clear - F; induction F; constructor; [now apply obj_more|assumption]|]. constructor; [|constructor]. cbn [obj_ok data]. eexists. split; [rewrite nth_error_app2, Nat.sub_diag by lia; reflexivity|]. now apply rep_zeros.
    + intros i j m m' Ei Ej Ed. destruct (Nat.lt_ge_cases i (length (mats s))) as [Li|Li]; destruct (Nat.lt_ge_cases j (length (mats s))) as [Lj|Lj].
      * rewrite nth_error_app1 in Ei, Ej by assumption. now apply (D i j m m').
      * rewrite nth_error_app1 in Ei by assumption. rewrite nth_error_app2 in Ej by assumption. destruct (j - length (mats s))%nat as [|k]; [|destruct k; discriminate]. cbn in Ej. injection Ej as <-. cbn in Ed. pose proof (fresh s ts i m I Ei). lia.
      * rewrite nth_error_app1 in Ej by assumption. rewrite nth_error_app2 in Ei by assumption. destruct (i - length (mats s))%nat as [|k]; [|destruct k; discriminate]. cbn in Ei. injection Ei as <-. cbn in Ed. pose proof (fresh s ts j m' I Ej). lia.
      * rewrite nth_error_app2 in Ei, Ej by assumption. destruct (i - length (mats s))%nat as [|k] eqn:Ki; [|destruct k; discriminate]. destruct (j - length (mats s))%nat as [|k] eqn:Kj; [|destruct k; discriminate]. lia.
    + rewrite !there_app. cbn. lia.
  - intros E. apply AT in E. destruct E as (t & Et & E). destruct (size_ok r c) eqn:SZ; [|discriminate]. injection E as <- <-. destruct (live_inv s ts i t I Et) as (m & b & Em & Eb & R). unfold live. rewrite Em. cbn [bind resize].
    eexists. split; [reflexivity|]. pose proof I as (F & D). cbn [arrays mats]. split; [split; cbn [arrays mats]|].
    + apply F2_of_nth. intros j. pose proof (F2_nth _ _ _ F j) as H. rewrite !nupd. destruct (Nat.eqb_spec i j) as [<-|N].
      * rewrite Em, Et. cbn [option_map obj_ok data]. eexists. split; [rewrite nth_error_app2, Nat.sub_diag by lia; reflexivity|]. now apply rep_zeros.
      * destruct (nth_error (mats s) j) as [om|], (nth_error ts j) as [ot|]; auto. now apply obj_more.
    + intros j k mj mk Ej Ek Ed. rewrite nupd in Ej, Ek. destruct (Nat.eqb_spec i j) as [<-|Nj]; destruct (Nat.eqb_spec i k) as [<-|Nk]; auto.
      * rewrite Em in Ej. injection Ej as <-. cbn in Ed. pose proof (fresh s ts k mk I Ek). lia.
      * rewrite Em in Ek. injection Ek as <-. cbn in Ed. pose proof (fresh s ts j mj I Ej). lia.
      * now apply (D j k mj mk).
    + rewrite there_app. rewrite (there_upd_some _ _ m _ Em). cbn. lia.
  - intros E. apply AT in E. destruct E as (t & Et & E). destruct (inside t row col) eqn:IN; [|discriminate]. injection E as <- <-. unfold inside in IN. destruct (set_ok s ts i t row col v I Et ltac:(lia) ltac:(lia)) as (s' & E1 & I1 & M1 & T1). rewrite E1. cbn [bind]. exists s'. split; [reflexivity|]. split; [exact I1|]. rewrite M1. lia.
  - intros E. apply AT in E. destruct E as (t & Et & E). destruct (inside t row col) eqn:IN; [|discriminate]. injection E as <- <-. unfold inside in IN. destruct (live_inv s ts i t I Et) as (m & b & Em & Eb & R). destruct (index_ok m t row col b R ltac:(lia) ltac:(lia)) as (Ei & Li).
    unfold get_elem, live. rewrite Em. cbn [bind]. assert (CK : check debug m row col = Ok tt).
    { unfold check. destruct debug; [|reflexivity]. destruct R as (-> & -> & _). unfold invariant. replace ((row <? rows t) && (col <? cols t)) with true by lia. reflexivity. }
    rewrite CK. cbn [bind]. unfold array. rewrite Eb. cbn [bind]. unfold get. rewrite Ei. destruct R as (_ & _ & _ & _ & _ & _ & R). rewrite (R row col) by lia. cbn [bind]. exists s. split; [reflexivity|]. split; [exact I|lia].
  - intros E. apply AT in E. destruct E as (t & Et & E). destruct (_ && _) eqn:IN in E; [|discriminate]. injection E as <- <-. destruct (live_inv s ts i t I Et) as (m & b & Em & Eb & R). unfold setRow, live. rewrite Em. cbn [bind].
    assert (En : Z.to_nat (ncols m) = length vs) by (destruct R as (_ & -> & _); lia). rewrite En. destruct (setRow_ok i row [nan] vs s ts t 0 I Et ltac:(lia) ltac:(lia) ltac:(lia)) as (s' & E1 & I1 & M1 & T1). rewrite E1. cbn [bind].
    assert (CK : (if debug then let! v := get (vs ++ [nan]) (length vs) in invariant (is_nan v) else Ok tt) = Ok tt).
    { destruct debug; [|reflexivity]. unfold get. rewrite nth_error_app2, Nat.sub_diag by lia. cbn. now rewrite nan_is_nan. }
    rewrite CK. cbn [bind]. exists s'. split; [reflexivity|]. split; [|rewrite M1; lia]. rewrite <- (upd_upd ts i (Some (part_row t row 0 vs))). apply (inv_same s' _ i (part_row t row 0 vs)); [| |exact I1].
    + unfold same_table, part_row, replace_row. cbn [rows cols elem]. split; [reflexivity|]. split; [reflexivity|]. intros r c Hc. rewrite Z.sub_0_r. destruct (r =? row); [|reflexivity]. replace (0 <=? c) with true by lia. reflexivity.
    + rewrite nupd, Et, Nat.eqb_refl. reflexivity.
  - intros E. apply AT in E. destruct E as (t & Et & E). injection E as <- <-. destruct (live_inv s ts i t I Et) as (m & b & Em & Eb & R). unfold live. rewrite Em. cbn [bind]. unfold array. rewrite Eb. cbn [bind]. eexists. split; [reflexivity|]. pose proof I as (F & D). cbn [arrays mats]. split; [split; cbn [arrays mats]|].
    + apply F2_of_nth. intros j. pose proof (F2_nth _ _ _ F j) as H. rewrite !nupd. destruct (Nat.eqb_spec i j) as [<-|N]; [rewrite Em, Et; exact Logic.I|].
      destruct (nth_error (mats s) j) as [[mj|]|] eqn:Ej; destruct (nth_error ts j) as [[tj|]|]; cbn in *; auto. destruct H as (x & Ex & Rx). exists x. split; [|exact Rx]. rewrite nupd. destruct (Nat.eqb_spec (data m) (data mj)) as [Q|Q]; [exfalso; apply N; now apply (D i j m mj)|exact Ex].
    + intros j k mj mk Ej Ek. rewrite nupd in Ej, Ek. destruct (Nat.eqb_spec i j) as [<-|Nj]; [rewrite Em in Ej; discriminate|]. destruct (Nat.eqb_spec i k) as [<-|Nk]; [rewrite Em in Ek; discriminate|]. now apply D.
    + pose proof (there_upd_none _ _ _ Em). pose proof (there_upd_none _ _ _ Eb). lia.
  - discriminate.
Qed.
Lemma run_ok l : forall s ts, inv s ts -> conforms (run_ops (step V zero debug nan is_nan) s l) (run_ops (tstep zero) ts l).
Proof.
  induction l as [|o l IH]; intros s ts I; [constructor|]. cbn [run_ops]. destruct (tstep zero ts o) as [[ts' a]| | |] eqn:E.
  - destruct (step_ok s ts o ts' a I E) as (s' & Es & I' & _). rewrite Es. constructor. now apply IH.
  - exfalso. destruct o; cbn in E; repeat match type of E with context [match ?x with _ => _ end] => destruct x; cbn in E; try discriminate end; discriminate.
  - constructor.
  - exfalso. destruct o; cbn in E; repeat match type of E with context [match ?x with _ => _ end] => destruct x; cbn in E; try discriminate end; discriminate.
Qed.
Lemma exec_ok l : forall s ts ts', inv s ts -> exec_ops (tstep zero) ts l = Ok ts' -> exists s', exec_ops (step V zero debug nan is_nan) s l = Ok s' /\ inv s' ts' /\
  (there (arrays s') + there (mats s) = there (arrays s) + there (mats s') + resizes l)%nat.
Proof.
  induction l as [|o l IH]; intros s ts ts' I; cbn [exec_ops].
  - intros E. injection E as <-. exists s. split; [reflexivity|]. split; [exact I|]. unfold resizes. cbn. lia.
  - destruct (tstep zero ts o) as [[t1 a]| | |] eqn:E; try discriminate. cbn [bind]. intros E'. destruct (step_ok s ts o t1 a I E) as (s1 & Es & I1 & L1). rewrite Es. cbn [bind]. destruct (IH s1 t1 ts' I1 E') as (s2 & E2 & I2 & L2). exists s2. split; [exact E2|]. split; [exact I2|].
    replace (resizes (o :: l)) with (leak o + resizes l)%nat by (destruct o; reflexivity). lia.
Qed.
Lemma inv_start : inv (mk_state V [] []) [].
Proof. split; [constructor|]. intros i j m m' E. destruct i; discriminate. Qed.
End P.

(** C104. In every program of Matrix objects, in debug and release builds, that uses living
    matrices, indices inside of them, whole rows for setRow, sizes whose product is an
    unsigned int, and no copies: every matrix starts with zeros, every get returns what was
    stored last at that place of that matrix since it was made or resized, and no call
    touches memory that is not the matrix's own. *)
Theorem C104_partial : forall V (zero nan : V) is_nan debug prog, is_nan nan = true ->
  conforms (run V zero debug nan is_nan prog) (run_ops (tstep zero) [] prog).
Proof. intros V zero nan is_nan debug prog H. apply run_ok; [exact H|apply inv_start]. Qed.
Print Assumptions C104_partial.

(** Every resize loses an array: at the end of such a program there is one array for each
    living matrix and one for each resize call, for good. *)
Theorem C104_leak_refuted : forall V (zero nan : V) is_nan debug prog ts, is_nan nan = true -> exec_ops (tstep zero) [] prog = Ok ts ->
  exists s, final V zero debug nan is_nan prog = Ok s /\ there (arrays s) = (there (mats s) + resizes prog)%nat /\ there (mats s) = there ts.
Proof.
  intros V zero nan is_nan debug prog ts H E. destruct (exec_ok zero nan is_nan debug H prog (mk_state V [] []) [] ts (inv_start (V := V)) E) as (s & Es & (F & _) & L). exists s. split; [exact Es|]. split; [cbn in L; lia|].
  clear - F. unfold there. induction F as [|om ot l l' H F IH]; [reflexivity|]. destruct om, ot; cbn in *; try contradiction; lia.
Qed.
Print Assumptions C104_leak_refuted.

(** A copy shares the array: a change of one is seen in the other, and deleting both is
    undefined. *)
Theorem C104_copy_refuted : forall V (zero nan v : V) is_nan debug,
  run V zero debug nan is_nan [New 1 1; Copy 0; Set_ 0 0 0 v; Get_ 1 0 0; Delete 0; Delete 1] = [Ok None; Ok None; Ok None; Ok (Some v); Ok None; UB].
Proof. intros. destruct debug; reflexivity. Qed.
Print Assumptions C104_copy_refuted.

(** A size whose product wraps gives an array that is too small: an element of a
    65536 by 65537 matrix, of which 65536 elements are allocated. *)
Theorem C104_large_refuted : forall V (zero nan v : V) is_nan debug,
  run V zero debug nan is_nan [New 65536 65537; Set_ 0 65534 65536 v] = [Ok None; UB] .
Proof.
  intros. unfold run. cbn [run_ops step resize arrays mats app]. assert (E : u32 (65536 * 65537) = 65536) by reflexivity. rewrite E.
  unfold set, live. cbn [mats nth_error bind arrays data]. assert (CK : check debug (mk_mat (length (@nil (option (list V)))) 65536 65537) 65534 65536 = Ok tt) by (destruct debug; reflexivity).
  rewrite CK. cbn [bind array arrays data length nth_error]. unfold put. rewrite repeat_length.
  assert (I : index (mk_mat 0 65536 65537) 65534 65536 = Z.to_nat 4294967294) by (apply (f_equal Z.to_nat); reflexivity). rewrite I.
  assert (L : (Z.to_nat 4294967294 <? Z.to_nat 65536)%nat = false) by (apply Nat.ltb_ge, Z2Nat.inj_le; discriminate). rewrite L. reflexivity.
Qed.
Print Assumptions C104_large_refuted.

(** Outside of the matrix, a release build reads or changes another element where a debug
    build stops. *)
Theorem C104_outside_refuted : forall V (zero nan v : V) is_nan,
  run V zero false nan is_nan [New 2 2; Set_ 0 0 2 v; Get_ 0 1 0] = [Ok None; Ok None; Ok (Some v)] /\ run V zero true nan is_nan [New 2 2; Set_ 0 0 2 v; Get_ 0 1 0] = [Ok None; Abort].
Proof. intros. split; reflexivity. Qed.
Print Assumptions C104_outside_refuted.

(** Two matrices, a row, a resize, a deletion. *)
Example C104_ex : let prog := [New 2 3; New 1 1; SetRow 0 1 [5; 6; 7]; Set_ 1 0 0 9; Get_ 0 1 2; Get_ 0 0 2; Resize 1 2 2; Get_ 1 0 0; Set_ 1 1 0 4; Get_ 1 1 0; Delete 0; Get_ 1 1 0; Delete 1] in
  run Z 0 true (-1) (Z.eqb (-1)) prog = [Ok None; Ok None; Ok None; Ok None; Ok (Some 7); Ok (Some 0); Ok None; Ok (Some 0); Ok None; Ok (Some 4); Ok None; Ok (Some 4); Ok None] /\
  run_ops (tstep 0) [] prog = run Z 0 false (-1) (Z.eqb (-1)) prog /\ (exists s, final Z 0 false (-1) (Z.eqb (-1)) prog = Ok s /\ there (arrays s) = 1%nat).
Proof. cbv zeta. split; [vm_compute; reflexivity|]. split; [vm_compute; reflexivity|]. eexists. split; vm_compute; reflexivity. Qed.
