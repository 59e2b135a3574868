(** Proofs about HashTupleStats and StatsCube. *)
From Coq Require Import List Arith NArith ZArith Lia Bool Permutation ZifyBool ZifyNat ZifyN.
From Verif Require Import Common CommonFacts HashTable_Model HashTable_Spec HashMap_Spec HashMap_Model HashMap_Proofs HashFns_Model Unique_Spec Unique_Model Unique_Proofs Tuples_Spec Tuples_Model Tuples_Proofs Cube_Spec Cube_Model Cube_Entries.
Import ListNotations.
Local Open Scope nat_scope.

Section C.
Context {A S X : Type}.
Variable eqb : A -> A -> bool.
Variable hash : A -> Z.
Variable adef : A.
Variable fresh : S.
Variable add : S -> X -> S.
Variable zero : X.
Variable cube_add : S -> S -> S.
Variable opt : bool -> list (option A) -> bool.
Variable n : nat.
Hypothesis eqb_eq : forall a b, eqb a b = true <-> a = b.

Lemma adec (a b : A) : {a = b} + {a <> b}.
Proof. destruct (eqb a b) eqn:E; [left; now apply eqb_eq|right; intros H; apply eqb_eq in H; congruence]. Defined.
Lemma tdec (a b : list A) : {a = b} + {a <> b}.
Proof. apply list_eq_dec, adec. Defined.
Lemma pdec (a b : list (option A)) : {a = b} + {a <> b}.
Proof. apply list_eq_dec. intros [x|] [y|]; try (now left); try (right; discriminate). destruct (adec x y); [left; congruence|right; congruence]. Defined.

(** Tuples and their equality. *)
Lemma tuple_equal_eq a : forall b, tuple_equal eqb a b = true <-> a = b.
Proof.
  induction a as [|x a IH]; intros [|y b]; cbn [tuple_equal]; try (split; [discriminate|discriminate]); [split; reflexivity|].
  rewrite andb_true_iff, eqb_eq, IH. split; [intros [-> ->]; reflexivity|intros E; injection E; auto].
Qed.
Lemma any_equal_iff m : forall l r k, length l = length r ->
  (bitset_any_equal eqb l r m k = true <-> forall i, i < length l -> bit m (k + i) = true \/ nth_error l i = nth_error r i).
Proof.
  induction l as [|x l IH]; intros [|y r] k L; cbn [length] in *; try lia; cbn [bitset_any_equal].
  - split; [intros _ i Hi; lia|reflexivity].
  - specialize (IH r (k + 1) ltac:(lia)). split.
    + destruct (bit m k || eqb x y) eqn:E; [|discriminate]. intros H [|i] Hi.
      * rewrite Nat.add_0_r. apply orb_true_iff in E. destruct E as [E|E]; [now left|right]. apply eqb_eq in E. cbn. congruence.
      * cbn [nth_error]. replace (k + Datatypes.S i) with (k + 1 + i) by lia. apply IH; [exact H|lia].
    + intros H. replace (bit m k || eqb x y) with true.
      * apply IH. intros i Hi. specialize (H (Datatypes.S i) ltac:(lia)). replace (k + 1 + i) with (k + Datatypes.S i) by lia. exact H.
      * symmetry. apply orb_true_iff. specialize (H 0 ltac:(lia)). rewrite Nat.add_0_r in H. destruct H as [H|H]; [now left|right]. cbn in H. apply eqb_eq. congruence.
Qed.
Lemma bequal_iff a b : bequal eqb a b = true <-> (any a = any b /\ length (data a) = length (data b) /\ forall i, i < length (data a) -> bit (any a) i = true \/ nth_error (data a) i = nth_error (data b) i).
Proof.
  unfold bequal, bat_equal. rewrite andb_true_iff, Nat.eqb_eq. split.
  - intros (L & H). destruct (bits_equal (any a) (any b)) eqn:E; [|discriminate]. apply bits_equal_eq in E. cbn [negb] in H. split; [exact E|]. split; [exact L|]. now apply (any_equal_iff (any a) _ _ 0 L).
  - intros (E & L & H). split; [exact L|]. replace (bits_equal (any a) (any b)) with true by (symmetry; now apply bits_equal_eq). cbn [negb]. now apply any_equal_iff.
Qed.
Lemma bequal_refl a : bequal eqb a a = true.
Proof. apply bequal_iff. auto. Qed.
Lemma bequal_sym a b : bequal eqb a b = true -> bequal eqb b a = true.
Proof. rewrite !bequal_iff. intros (E & L & H). split; [auto|]. split; [auto|]. intros i Hi. rewrite <- E. destruct (H i ltac:(lia)); auto. Qed.
Lemma bequal_trans a b c : bequal eqb a b = true -> bequal eqb b c = true -> bequal eqb a c = true.
Proof.
  rewrite !bequal_iff. intros (E & L & H) (E' & L' & H'). split; [congruence|]. split; [congruence|]. intros i Hi. destruct (H i Hi) as [Q|Q]; [now left|]. destruct (H' i ltac:(lia)) as [Q'|Q']; [left; congruence|right; congruence].
Qed.
Lemma any_hash_eq m : forall N l r k, length l <= N -> length l = length r -> (forall i, i < length l -> bit m (k + i) = true \/ nth_error l i = nth_error r i) -> bitset_any_hash hash l m k = bitset_any_hash hash r m k.
Proof.
  induction N as [|N IH]; intros l r k HN L H.
  - destruct l, r; cbn [length] in *; try lia; reflexivity.
  - destruct l as [|x [|x2 l]], r as [|y [|y2 r]]; cbn [length] in *; try lia; cbn [bitset_any_hash].
    + destruct (H 0 ltac:(lia)) as [Q|Q]; [rewrite Nat.add_0_r in Q; now rewrite Q|]. cbn in Q. now injection Q as ->.
    + rewrite (IH l r (k + 2)); [|lia|lia|].
      * f_equal.
        -- destruct (H 0 ltac:(lia)) as [Q|Q]; [rewrite Nat.add_0_r in Q; now rewrite Q|]. cbn in Q. now injection Q as ->.
        -- destruct (H 1 ltac:(lia)) as [Q|Q]; [now rewrite Q|]. cbn in Q. now injection Q as ->.
      * intros i Hi. specialize (H (Datatypes.S (Datatypes.S i)) ltac:(lia)). replace (k + 2 + i) with (k + Datatypes.S (Datatypes.S i)) by lia. exact H.
Qed.
Lemma bequal_hash a b : bequal eqb a b = true -> bhash hash a = bhash hash b.
Proof. rewrite bequal_iff. intros (E & L & H). unfold bhash, bat_hash. rewrite <- E. f_equal. eapply any_hash_eq; eauto. Qed.
Definition patt (k : bitset_any_tuple A) : list (option A) := pattern (data k) (any k).
Definition valid (k : bitset_any_tuple A) : Prop := length (data k) = n /\ length (any k) = n.
Lemma nth_pattern : forall (d : list A) m i, length d = length m -> nth_error (pattern d m) i = match nth_error d i with Some x => Some (if bit m i then None else Some x) | None => None end.
Proof.
  induction d as [|x d IH]; intros [|b m] i L; cbn [length] in L; try lia; cbn [pattern]; [now destruct i|]. destruct i as [|i]; [reflexivity|]. cbn [nth_error]. rewrite IH by lia. reflexivity.
Qed.
Lemma nth_ext_error {B} (l r : list B) : length l = length r -> (forall i, i < length l -> nth_error l i = nth_error r i) -> l = r.
Proof.
  revert r. induction l as [|x l IH]; intros [|y r] L H; cbn [length] in *; try lia; [reflexivity|]. f_equal.
  - specialize (H 0 ltac:(lia)). now injection H.
  - apply IH; [lia|]. intros i Hi. apply (H (Datatypes.S i)). lia.
Qed.
Lemma bequal_patt a b : valid a -> valid b -> (bequal eqb a b = true <-> patt a = patt b).
Proof.
  intros (L1 & L2) (L3 & L4). rewrite bequal_iff. unfold patt. split.
  - intros (E & L & H). apply nth_ext_error; [rewrite !pattern_length by congruence; congruence|]. intros i Hi. rewrite pattern_length in Hi by congruence. rewrite !nth_pattern by congruence.
    rewrite <- E. destruct (H i ltac:(lia)) as [Q|Q]; [|now rewrite Q]. rewrite Q. destruct (nth_error (data a) i) eqn:E1, (nth_error (data b) i) eqn:E2; try reflexivity; [apply nth_error_None in E2|apply nth_error_None in E1]; lia.
  - intros E. split; [eapply pattern_mask; [| |exact E]; congruence|]. split; [congruence|]. intros i Hi. assert (Q := f_equal (fun l => nth_error l i) E). cbv beta in Q. rewrite !nth_pattern in Q by congruence.
    destruct (bit (any a) i) eqn:B; [now left|right]. destruct (nth_error (data a) i) eqn:E1; [|apply nth_error_None in E1; lia]. destruct (nth_error (data b) i) eqn:E2; [|discriminate]. destruct (bit (any b) i); congruence.
Qed.
Lemma tuple_refl a : tuple_equal eqb a a = true.
Proof. now apply tuple_equal_eq. Qed.
Lemma tuple_sym a b : tuple_equal eqb a b = true -> tuple_equal eqb b a = true.
Proof. rewrite !tuple_equal_eq. auto. Qed.
Lemma tuple_trans a b c : tuple_equal eqb a b = true -> tuple_equal eqb b c = true -> tuple_equal eqb a c = true.
Proof. rewrite !tuple_equal_eq. congruence. Qed.
Lemma tuple_hash_eq a b : tuple_equal eqb a b = true -> thash hash a = thash hash b.
Proof. rewrite tuple_equal_eq. now intros ->. Qed.
Definition tvalid (k : list A) : Prop := length k = n.
Lemma tuple_den a b : tvalid a -> tvalid b -> (tuple_equal eqb a b = true <-> (fun k : list A => k) a = (fun k => k) b).
Proof. intros _ _. apply tuple_equal_eq. Qed.

Notation room n := (N.of_nat n < 283301878)%N.
Notation BR := (@ER (list A) (list A) S (thash hash) (tuple_equal eqb) (fun k => k) tvalid).
Notation CR := (@ER (bitset_any_tuple A) (list (option A)) S (bhash hash) (bequal eqb) patt valid).
Definition ctouch c f m k g := touch_rel (bhash hash) (bequal eqb) (bdef adef n) fresh patt valid bequal_refl bequal_sym bequal_trans bequal_hash bequal_patt pdec c f m k g.
Definition cwalk c f m := walk_rel (bhash hash) (bequal eqb) (bdef adef n) fresh patt valid bequal_refl bequal_sym bequal_trans bequal_hash bequal_patt c f m.
Definition btouch c f m k g := touch_rel (thash hash) (tuple_equal eqb) [] fresh (fun k => k) tvalid tuple_refl tuple_sym tuple_trans tuple_hash_eq tuple_den tdec c f m k g.
Definition bwalk c f m := walk_rel (thash hash) (tuple_equal eqb) [] fresh (fun k => k) tvalid tuple_refl tuple_sym tuple_trans tuple_hash_eq tuple_den c f m.
Definition bfind (c : hts) (f : list A -> option S) m k := findEntry_rel (thash hash) (tuple_equal eqb) [] (fun k => k) tvalid tuple_hash_eq tuple_den c f m k.

(** The cube: the patterns under a mask prefix. *)
Fixpoint hit (d : list A) (pre : list bool) (p : list (option A)) {struct pre} : bool :=
  match pre with
  | [] => fits eqb p d
  | b :: pre => match d, p with x :: d, q :: p => (match q with None => b | Some y => negb b && eqb y x end) && hit d pre p | _, _ => false end
  end.
Lemma hit_step d : forall pre p, length pre < length d ->
  hit d pre p = hit d (pre ++ [false]) p || hit d (pre ++ [true]) p /\ (hit d (pre ++ [false]) p = true -> hit d (pre ++ [true]) p = true -> False).
Proof.
  induction d as [|x d IH]; intros pre p L; cbn [length] in L; [lia|]. destruct pre as [|b pre]; cbn [app hit].
  - destruct p as [|[y|] p]; cbn [fits negb andb orb]; [split; [reflexivity|discriminate]|split; [now rewrite orb_false_r|discriminate]|split; [reflexivity|discriminate]].
  - cbn [length] in L. destruct p as [|q p]; [split; [reflexivity|discriminate]|]. destruct (IH pre p ltac:(lia)) as (E & X1). rewrite E. destruct (match q with None => b | Some y => negb b && eqb y x end); cbn [andb]; [|split; [reflexivity|discriminate]]. split; [reflexivity|exact X1].
Qed.
Lemma hit_full d : forall pre p, length pre = length d -> (hit d pre p = true <-> p = pattern d pre).
Proof.
  induction d as [|x d IH]; intros [|b pre] p L; cbn [length] in L; try lia; cbn [hit pattern].
  - destruct p as [|[y|] p]; cbn [fits]; split; congruence.
  - destruct p as [|q p]; [split; discriminate|]. rewrite andb_true_iff, IH by lia. destruct q as [y|], b; cbn [negb andb].
    + split; [intros [? _]; discriminate|discriminate].
    + rewrite eqb_eq. split; [intros [-> ->]; reflexivity|intros E; injection E; auto].
    + split; [intros [_ ->]; reflexivity|intros E; injection E; auto].
    + split; [intros [? _]; discriminate|discriminate].
Qed.
Lemma has_any_pattern : forall (d : list A) m, length d = length m -> has_any (pattern d m) = existsb (fun b => b) m.
Proof. induction d as [|x d IH]; intros [|b m] L; cbn [length] in L; try lia; [reflexivity|]. unfold has_any in *. cbn [pattern existsb]. rewrite IH by lia. now destruct b. Qed.
Definition one (d : list A) (pre : list bool) (v : S) (f : list (option A) -> option S) (p : list (option A)) : option S :=
  if hit d pre p && wanted opt p then Some (cube_add (val fresh (f p)) v) else f p.
Lemma firstn_upd : forall (m : list bool) pos b, pos < length m -> firstn (pos + 1) (upd m pos b) = firstn pos m ++ [b].
Proof. induction m as [|x m IH]; intros [|pos] b L; cbn [length] in L; try lia; [reflexivity|]. cbn [upd Nat.add firstn app]. rewrite IH by lia. reflexivity. Qed.
Lemma firstn_upd_lt : forall (m : list bool) pos b, firstn pos (upd m pos b) = firstn pos m.
Proof. induction m as [|x m IH]; intros [|pos] b; try reflexivity. cbn [upd firstn]. now rewrite IH. Qed.
Lemma existsb_app1 l (b : bool) : existsb (fun b => b) (l ++ [b]) = existsb (fun b => b) l || b.
Proof. rewrite existsb_app. cbn. now rewrite orb_false_r. Qed.
Lemma firstn_firstn_le {B} (l : list B) i j : i <= j -> firstn i (firstn j l) = firstn i l.
Proof. intros H. rewrite firstn_firstn. now rewrite Nat.min_l by lia. Qed.

Lemma cubeAddOne_rel v : forall todo c f m key pos had, CR c f m -> room (m + 2 ^ todo) -> valid key -> pos + todo = n -> had = existsb (fun b => b) (firstn pos (any key)) ->
  exists c' key', cubeAddOne eqb hash fresh cube_add opt todo c key pos had v = Ok (c', key') /\ valid key' /\ data key' = data key /\ firstn pos (any key') = firstn pos (any key)
    /\ CR c' (one (data key) (firstn pos (any key)) v f) (m + 2 ^ todo).
Proof.
  induction todo as [|todo IH]; intros c f m key pos had R Hr V Hp Hh; cbn [cubeAddOne].
  - assert (FA : firstn pos (any key) = any key) by (apply firstn_all2; destruct V; lia). rewrite FA in Hh |- *. cbn [Nat.pow] in *.
    assert (HA : had = has_any (patt key)) by (unfold patt; rewrite has_any_pattern by (destruct V; congruence); exact Hh).
    assert (HF : forall p, hit (data key) (any key) p = true <-> p = patt key) by (intros p; apply hit_full; destruct V; congruence).
    fold (patt key). destruct (opt had (patt key)) eqn:Eo.
    + destruct (ctouch c f m key (fun s => cube_add s v) R ltac:(lia) V) as (c' & E & R'). rewrite E. cbn [bind]. exists c', key. split; [reflexivity|]. split; [exact V|]. split; [reflexivity|]. split; [exact FA|].
      eapply ER_ext; [|replace (m + 1) with (Datatypes.S m) by lia; exact R']. intros p. unfold chg, one, wanted. destruct (pdec (patt key) p) as [<-|D].
      * rewrite (proj2 (HF _) eq_refl). rewrite <- HA, Eo. reflexivity.
      * destruct (hit (data key) (any key) p) eqn:H; [apply HF in H; congruence|reflexivity].
    + exists c, key. split; [reflexivity|]. split; [exact V|]. split; [reflexivity|]. split; [exact FA|]. eapply ER_le; [|eapply ER_ext; [|exact R]]; [lia|]. intros p. unfold one, wanted.
      destruct (hit (data key) (any key) p) eqn:H; [|reflexivity]. apply HF in H. subst p. rewrite <- HA, Eo. reflexivity.
  - cbn [Nat.pow] in Hr. assert (V0 : forall k b, valid k -> valid (set_any k pos b)) by (intros k b [V1 V2]; split; cbn [data any set_any]; [exact V1|now rewrite length_upd]).
    assert (V1 := proj1 V). assert (V2 := proj2 V).
    destruct (IH c f m (set_any key pos false) (pos + 1) had R ltac:(lia) (V0 key false V) ltac:(lia)) as (c1 & k1 & E1 & VV1 & D1 & F1 & R1).
    { cbn [any set_any]. rewrite firstn_upd by lia. rewrite existsb_app1, orb_false_r. exact Hh. }
    rewrite E1. cbn [bind]. cbn [any data set_any] in D1, F1, R1. rewrite firstn_upd in F1, R1 by lia.
    assert (P1 : firstn pos (any k1) = firstn pos (any key)).
    { rewrite <- (firstn_firstn_le (any k1) pos (pos + 1)) by lia. rewrite F1. rewrite firstn_app. rewrite firstn_firstn, Nat.min_id. rewrite firstn_length, Nat.min_l by lia. replace (pos - pos) with 0 by lia. cbn. apply app_nil_r. }
    assert (W1 := proj1 VV1). assert (W2 := proj2 VV1).
    destruct (IH c1 _ _ (set_any k1 pos true) (pos + 1) true R1 ltac:(lia) (V0 k1 true VV1) ltac:(lia)) as (c2 & k2 & E2 & VV2 & D2 & F2 & R2).
    { cbn [any set_any]. rewrite firstn_upd by lia. rewrite existsb_app1. now rewrite orb_true_r. }
    rewrite E2. cbn [any data set_any] in D2, F2, R2. rewrite firstn_upd in F2, R2 by lia. rewrite D1 in D2, R2. rewrite P1 in F2, R2.
    exists c2, k2. split; [reflexivity|]. split; [exact VV2|]. split; [exact D2|]. split.
    + rewrite <- (firstn_firstn_le (any k2) pos (pos + 1)) by lia. rewrite F2. rewrite firstn_app. rewrite firstn_firstn, Nat.min_id. rewrite firstn_length, Nat.min_l by lia. replace (pos - pos) with 0 by lia. cbn. apply app_nil_r.
    + eapply ER_ext; [|eapply ER_le; [|exact R2]]; [|cbn [Nat.pow]; lia]. intros p. unfold one.
      destruct (hit_step (data key) (firstn pos (any key)) p) as (HE & HX); [rewrite firstn_length; lia|]. rewrite HE.
      destruct (hit (data key) (firstn pos (any key) ++ [false]) p), (hit (data key) (firstn pos (any key) ++ [true]) p); cbn [orb andb]; try (exfalso; apply HX; reflexivity); reflexivity.
Qed.
Lemma addToCube_rel c f m k v : CR c f m -> room (m + 2 ^ n) -> length k = n ->
  exists c', addToCube eqb hash fresh cube_add opt c k v = Ok c' /\ CR c' (fun p => gather eqb fresh cube_add opt p [(k, v)] (f p)) (m + 2 ^ n).
Proof.
  intros R Hr L. unfold addToCube. destruct (cubeAddOne_rel v (length k) c f m {| data := k; any := repeat false (length k) |} 0 false R) as (c' & key' & E & _ & _ & _ & R').
  - now rewrite L.
  - split; cbn [data any]; [exact L|now rewrite repeat_length].
  - exact L.
  - reflexivity.
  - rewrite E. cbn [bind]. exists c'. split; [reflexivity|]. rewrite L in R'. exact R'.
Qed.
Lemma gather_app p a b e : gather eqb fresh cube_add opt p (a ++ b) e = gather eqb fresh cube_add opt p b (gather eqb fresh cube_add opt p a e).
Proof. revert e. induction a as [|[k v] a IH]; intros e; [reflexivity|]. cbn [app gather]. apply IH. Qed.
Lemma addAll_rel : forall l c f m, CR c f m -> room (m + length l * 2 ^ n) -> (forall e, In e l -> length (fst e) = n) ->
  exists c', addAllToCube eqb hash fresh cube_add opt c l = Ok c' /\ CR c' (fun p => gather eqb fresh cube_add opt p l (f p)) (m + length l * 2 ^ n).
Proof.
  induction l as [|[k v] l IH]; intros c f m R Hr HL; cbn [addAllToCube length] in *.
  - exists c. split; [reflexivity|]. eapply ER_le; [|exact R]. lia.
  - destruct (addToCube_rel c f m k v R ltac:(lia) (HL (k, v) ltac:(now left))) as (c1 & E1 & R1). rewrite E1. cbn [bind].
    destruct (IH c1 _ _ R1 ltac:(lia)) as (c2 & E2 & R2); [intros e He; apply HL; now right|]. rewrite E2. exists c2. split; [reflexivity|]. eapply ER_le; [|eapply ER_ext; [|exact R2]]; [lia|]. intros p. reflexivity.
Qed.

(** walkZeros *)
Lemma eqb_refl a : eqb a a = true.
Proof. now apply eqb_eq. Qed.
Lemma eqb_sym a b : eqb a b = true -> eqb b a = true.
Proof. rewrite !eqb_eq. auto. Qed.
Lemma eqb_trans a b c : eqb a b = true -> eqb b c = true -> eqb a c = true.
Proof. rewrite !eqb_eq. congruence. Qed.
Notation vh := (fun a => Z.to_N (hash a)).
Lemma eqb_hash a b : eqb a b = true -> vh a = vh b.
Proof. rewrite eqb_eq. now intros ->. Qed.
Definition HU (m : nat) (h : ht A) (xs : list A) : Prop := exists s, RelU vh eqb h s m /\ (forall x, In x (us_set s) <-> In x xs).
Lemma distinct_nodup s : distinct eqb s -> NoDup s.
Proof.
  induction s as [|x s IH]; intros D; [constructor|]. apply (distinct_cons vh eqb eqb_refl eqb_sym eqb_trans eqb_hash) in D. destruct D as (D & Ab). constructor; [|auto]. intros I. specialize (Ab x I). rewrite eqb_refl in Ab. discriminate.
Qed.

Lemma HU_new : exists h, hu_new = Ok h /\ HU 0 h [].
Proof. destruct (hu_new_rel vh eqb adef eqb_refl eqb_sym eqb_trans eqb_hash) as (h & E & R). exists h. split; [exact E|]. exists (mk_us [] true). split; [exact R|]. intros x. reflexivity. Qed.
Lemma HU_add m h xs x : HU m h xs -> room m -> exists h' b, hu_add vh eqb h x = Ok (h', b) /\ HU (Datatypes.S m) h' (x :: xs).
Proof.
  intros (s & R & I) Hr. destruct (hu_add_rel vh eqb adef eqb_refl eqb_sym eqb_trans eqb_hash h s m x R Hr) as (h' & E & R'). eexists h', _. split; [exact E|]. eexists. split; [exact R'|].
  intros y. unfold insert. destruct (member eqb x (us_set s)) eqn:M; cbn [us_set In].
  - rewrite I. split; [now right|]. intros [<-|H]; [|exact H]. apply mem_true in M. destruct M as (z & Hz & Ez). apply eqb_eq in Ez. subst z. now apply I.
  - rewrite I. reflexivity.
Qed.
Lemma HU_walk m h xs : HU m h xs -> exists l, hu_walk h = Ok l /\ NoDup l /\ (forall x, In x l <-> In x xs) /\ length l <= length xs.
Proof.
  intros (s & R & I). destruct (hu_walk_rel vh eqb h s m R) as (l & E & Pm). exists l. split; [exact E|].
  assert (ND : NoDup l) by (eapply Permutation_NoDup; [apply Permutation_sym; exact Pm|]; apply distinct_nodup; destruct R as (a & _ & _ & D & _); exact D).
  assert (IL : forall x, In x l <-> In x xs) by (intros x; rewrite <- I; split; apply Permutation_in; [exact Pm|now apply Permutation_sym]). split; [exact ND|]. split; [exact IL|]. apply NoDup_incl_length; [exact ND|]. intros x Hx. now apply IL.
Qed.
Lemma new_huts_rel : forall m, exists hs, new_huts m = Ok hs /\ Forall2 (HU 0) hs (repeat [] m).
Proof. induction m as [|m (hs & E & F)]; cbn [new_huts repeat]; [exists []; split; [reflexivity|constructor]|]. destruct HU_new as (h & Eh & Hh). rewrite Eh. cbn [bind]. rewrite E. cbn [bind]. exists (h :: hs). split; [reflexivity|now constructor]. Qed.
Fixpoint zipcons (k : list A) (cols : list (list A)) : list (list A) :=
  match k, cols with x :: k, c :: cols => (x :: c) :: zipcons k cols | _, _ => [] end.
Lemma hut_add_rel m : forall hs cols k, Forall2 (HU m) hs cols -> room m -> length k = length hs -> exists hs', hut_add eqb hash hs k = Ok hs' /\ Forall2 (HU (Datatypes.S m)) hs' (zipcons k cols).
Proof.
  intros hs cols k F. revert k. induction F as [|h c hs cols Hh F IH]; intros [|x k] Hr L; cbn [length] in L; try lia; cbn [hut_add zipcons]; [exists []; split; [reflexivity|constructor]|].
  destruct (HU_add m h c x Hh Hr) as (h' & b & E & H'). rewrite E. cbn [bind]. destruct (IH k Hr ltac:(lia)) as (hs' & E' & F'). rewrite E'. cbn [bind]. exists (h' :: hs'). split; [reflexivity|now constructor].
Qed.
Definition all_cols (ks : list (list A)) (cols : list (list A)) : list (list A) := fold_left (fun c k => zipcons k c) ks cols.
Lemma Forall2_len {B C} (R : B -> C -> Prop) l r : Forall2 R l r -> length l = length r.
Proof. induction 1; cbn; congruence. Qed.
Lemma zipcons_length k cols : length k = length cols -> length (zipcons k cols) = length cols.
Proof. revert cols. induction k as [|x k IH]; intros [|c cols] L; cbn [length zipcons] in *; try lia. rewrite IH by lia. reflexivity. Qed.
Lemma fill_rel : forall ks hs cols m, Forall2 (HU m) hs cols -> room (m + length ks) -> (forall k, In k ks -> length k = length hs) -> exists hs', fill eqb hash hs ks = Ok hs' /\ Forall2 (HU (m + length ks)) hs' (all_cols ks cols).
Proof.
  induction ks as [|k ks IH]; intros hs cols m F Hr HL; cbn [fill length all_cols fold_left] in *.
  - exists hs. split; [reflexivity|]. now rewrite Nat.add_0_r.
  - destruct (hut_add_rel m hs cols k F ltac:(lia) (HL k ltac:(now left))) as (h1 & E1 & F1). rewrite E1. cbn [bind].
    destruct (IH h1 (zipcons k cols) (Datatypes.S m) F1) as (h2 & E2 & F2); [replace (Datatypes.S m + length ks) with (m + Datatypes.S (length ks)) by lia; exact Hr| |].
    + intros k' I. rewrite (Forall2_len _ _ _ F1), zipcons_length by (rewrite <- (Forall2_len _ _ _ F); apply HL; now left). rewrite <- (Forall2_len _ _ _ F). apply HL. now right.
    + exists h2. split; [exact E2|]. replace (m + Datatypes.S (length ks)) with (Datatypes.S m + length ks) by lia. exact F2.
Qed.
Lemma nth_zipcons : forall k cols i, length k = length cols -> nth_error (zipcons k cols) i = match nth_error k i, nth_error cols i with Some x, Some c => Some (x :: c) | _, _ => None end.
Proof.
  induction k as [|x k IH]; intros [|c cols] i L; cbn [length] in L; try lia; cbn [zipcons]; [now destruct i|]. destruct i as [|i]; [reflexivity|]. cbn [nth_error]. apply IH. lia.
Qed.
Lemma all_cols_nth : forall ks cols i c, (forall k, In k ks -> length k = length cols) -> nth_error (all_cols ks cols) i = Some c ->
  exists c0, nth_error cols i = Some c0 /\ length c = length c0 + length ks /\ forall x, In x c <-> In x c0 \/ exists k, In k ks /\ nth_error k i = Some x.
Proof.
  induction ks as [|k ks IH]; intros cols i c HL E; cbn [all_cols fold_left] in E.
  - exists c. split; [exact E|]. split; [cbn; lia|]. intros x. split; [now left|]. intros [H|(k & [] & _)]. exact H.
  - assert (Lk := HL k ltac:(now left)). destruct (IH (zipcons k cols) i c) as (c1 & E1 & L1 & I1); [intros k' I; rewrite zipcons_length by exact Lk; apply HL; now right|exact E|].
    rewrite nth_zipcons in E1 by exact Lk. destruct (nth_error k i) as [y|] eqn:Ey; [|discriminate]. destruct (nth_error cols i) as [c0|] eqn:Ec; [|discriminate]. injection E1 as <-. exists c0. split; [reflexivity|]. split; [cbn [length] in *; lia|].
    intros x. rewrite I1. cbn [In]. split.
    + intros [[<-|H]|(k' & I & H)]; [right; exists k; auto|now left|right; exists k'; auto].
    + intros [H|(k' & [<-|I] & H)]; [auto|left; left; congruence|right; exists k'; auto].
Qed.
Lemma all_cols_length : forall ks cols, (forall k, In k ks -> length k = length cols) -> length (all_cols ks cols) = length cols.
Proof.
  induction ks as [|k ks IH]; intros cols HL; cbn [all_cols fold_left]; [reflexivity|]. fold (all_cols ks (zipcons k cols)). rewrite IH; rewrite zipcons_length; auto; try (apply HL; now left). intros k' I. apply HL. now right.
Qed.

Lemma NoDup_app_intro {B} (a b : list B) : NoDup a -> NoDup b -> (forall x, In x a -> In x b -> False) -> NoDup (a ++ b).
Proof.
  induction a as [|x a IH]; intros Na Nb D; [exact Nb|]. inversion Na as [|? ? Nx Na']. subst. cbn [app]. constructor; [|apply IH; auto; intros y Ya Yb; apply (D y); [now right|exact Yb]].
  rewrite in_app_iff. intros [H|H]; [contradiction|]. apply (D x); [now left|exact H].
Qed.
Notation zw := (zeroWalk eqb hash).
Lemma zeroWalk_rel base f mb z M m : BR base f mb -> forall hs cols, Forall2 (HU m) hs cols -> (forall c, In c cols -> length c <= M) -> forall pre, length pre + length hs = n ->
  exists l, zw hs pre base z = Ok l /\ NoDup (map fst l)
    /\ (forall k v, In (k, v) l <-> exists r, k = pre ++ r /\ Forall2 (@In A) r cols /\ v = match f k with Some s => s | None => z end)
    /\ length l <= M ^ length hs.
Proof.
  intros RB hs cols F. induction F as [|h c hs cols Hh F IH]; intros HM pre L; cbn [zeroWalk length] in *.
  - rewrite (bfind base f mb pre RB) by (unfold tvalid; lia). cbn [bind]. exists [(pre, match f pre with Some s => s | None => z end)]. split; [destruct (f pre); reflexivity|]. cbn [map fst]. split; [constructor; [intros []|constructor]|].
    split; [|cbn; lia]. intros k v. cbn [In]. split.
    + intros [E|[]]. injection E as <- <-. exists []. rewrite app_nil_r. split; [reflexivity|]. split; [constructor|reflexivity].
    + intros (r & -> & F & ->). inversion F. subst. rewrite app_nil_r. now left.
  - destruct (HU_walk m h c Hh) as (vs & E & ND & IV & LV). rewrite E. cbn [bind].
    assert (Lc : length vs <= M) by (specialize (HM c ltac:(now left)); lia).
    assert (IH' : forall x, exists l, zw hs (pre ++ [x]) base z = Ok l /\ NoDup (map fst l) /\ (forall k v, In (k, v) l <-> exists r, k = (pre ++ [x]) ++ r /\ Forall2 (@In A) r cols /\ v = match f k with Some s => s | None => z end) /\ length l <= M ^ length hs).
    { intros x. apply IH; [intros c' Hc'; apply HM; now right|]. rewrite app_length. cbn [length]. lia. }
    clear IH. set (loop := fix loop (l : list A) : res (list (list A * S)) := match l with [] => Ok [] | x :: r => let! a := zw hs (pre ++ [x]) base z in let! b := loop r in Ok (a ++ b) end).
    assert (Hloop : forall vs, NoDup vs -> exists l, loop vs = Ok l /\ NoDup (map fst l) /\ (forall k v, In (k, v) l <-> exists x r, In x vs /\ k = pre ++ x :: r /\ Forall2 (@In A) r cols /\ v = match f k with Some s => s | None => z end) /\ length l <= length vs * M ^ length hs).
    { clear vs E ND IV LV Lc. induction vs as [|x vs IHv]; intros ND.
      - exists []. split; [reflexivity|]. split; [constructor|]. split; [|cbn; lia]. intros k v. split; [intros []|]. intros (x & r & [] & _).
      - inversion ND as [|? ? Nx ND']. subst. destruct (IH' x) as (a & Ea & Na & Ia & La). destruct (IHv ND') as (b & Eb & Nb & Ib & Lb). cbn [loop]. change (loop (x :: vs)) with (let! a := zw hs (pre ++ [x]) base z in let! b := loop vs in Ok (a ++ b)). rewrite Ea. cbn [bind]. rewrite Eb. cbn [bind]. exists (a ++ b). split; [reflexivity|]. split.
        + rewrite map_app. apply NoDup_app_intro; [exact Na|exact Nb|]. intros k Ka Kb. apply in_map_iff in Ka. destruct Ka as ((k1 & v1) & <- & Ka). apply in_map_iff in Kb. destruct Kb as ((k2 & v2) & Q & Kb). cbn [fst] in Q. subst k2.
          apply Ia in Ka. destruct Ka as (r & Q & _). apply Ib in Kb. destruct Kb as (x' & r' & Hx' & Q' & _). rewrite <- app_assoc in Q. rewrite Q in Q'. apply app_inv_head in Q'. cbn [app] in Q'. injection Q' as -> _. contradiction.
        + split; [|rewrite app_length; cbn [length]; nia]. intros k v. rewrite in_app_iff, Ia, Ib. split.
          * intros [(r & -> & H)|(x' & r & Hx & H)]; [exists x, r; rewrite <- app_assoc in *; cbn [app] in *; split; [now left|]; split; [reflexivity|exact H]|exists x', r; split; [now right|exact H]].
          * intros (x' & r & [<-|Hx] & -> & H); [left; exists r; rewrite <- app_assoc; split; [reflexivity|exact H]|right; exists x', r; auto]. }
    destruct (Hloop vs ND) as (l & El & Nl & Il & Ll). exists l. split; [exact El|]. split; [exact Nl|]. split.
    + intros k v. rewrite Il. split.
      * intros (x & r & Hx & -> & Fr & Hv). exists (x :: r). split; [reflexivity|]. split; [constructor; [now apply IV|exact Fr]|exact Hv].
      * intros (r & -> & Fr & Hv). inversion Fr as [|x c' r' cols' Hx Fr' E1 E2]. subst. exists x, r'. split; [now apply IV|auto].
    + cbn [Nat.pow]. etransitivity; [exact Ll|]. apply Nat.mul_le_mono_r. exact Lc.
Qed.
Lemma Forall2_In_nth : forall k (cols : list (list A)), Forall2 (@In A) k cols <-> length k = length cols /\ forall i x c, nth_error k i = Some x -> nth_error cols i = Some c -> In x c.
Proof.
  induction k as [|x k IH]; intros [|c cols]; cbn [length].
  - split; [intros _; split; [reflexivity|]; intros [|i]; discriminate|intros _; constructor].
  - split; [intros F; inversion F|intros [? _]; lia].
  - split; [intros F; inversion F|intros [? _]; lia].
  - split.
    + intros F. inversion F as [|? ? ? ? H1 H2]. subst. apply IH in H2. destruct H2 as (L & H2). split; [congruence|]. intros [|i] y c' E1 E2; cbn [nth_error] in *; [congruence|eauto].
    + intros (L & H). constructor; [apply (H 0); reflexivity|]. apply IH. split; [lia|]. intros i y c' E1 E2. apply (H (Datatypes.S i) y c'); assumption.
Qed.
Lemma walkZeros_rel base f m zz : BR base f m -> room m ->
  exists l, walkZeros eqb hash fresh add zero n base zz = Ok l /\ lists_zeros n f (empty_of fresh add zero zz) l /\ length l <= m ^ n /\ (forall e, In e l -> length (fst e) = n).
Proof.
  intros R Hr. unfold walkZeros. destruct (bwalk base f m R) as (rows & E & (ND & IN) & VA & _ & LR). rewrite E. cbn [bind].
  destruct (new_huts_rel n) as (hs & Eh & Fh). rewrite Eh. cbn [bind]. assert (Lh := Forall2_len _ _ _ Fh). rewrite repeat_length in Lh.
  assert (HL : forall k, In k (map fst rows) -> length k = n). { intros k I. apply in_map_iff in I. destruct I as (e & <- & I). exact (VA e I). }
  destruct (fill_rel (map fst rows) hs _ 0 Fh) as (hs' & Ef & Ff); [rewrite map_length; lia|intros k I; rewrite (HL k I); lia|]. rewrite Ef. cbn [bind].
  assert (HL' : forall k, In k (map fst rows) -> length k = length (repeat (@nil A) n)) by (intros k I; rewrite repeat_length; auto).
  assert (Lh' := Forall2_len _ _ _ Ff). rewrite all_cols_length, repeat_length in Lh' by exact HL'.
  fold (empty_of fresh add zero zz).
  destruct (zeroWalk_rel base f m (empty_of fresh add zero zz) m _ R hs' _ Ff) with (pre := @nil A) as (l & El & Nl & Il & Ll).
  - intros c I. apply In_nth_error in I. destruct I as (i & Hi). apply all_cols_nth in Hi; [|exact HL']. destruct Hi as (c0 & E0 & Lc & _). apply nth_error_In in E0. apply repeat_spec in E0. subst c0. rewrite map_length in Lc. cbn [length] in Lc. lia.
  - cbn [length]. lia.
  - assert (CH : forall k v, In (k, v) l <-> (length k = n /\ (forall i x, nth_error k i = Some x -> exists k' s, f k' = Some s /\ nth_error k' i = Some x) /\ v = match f k with Some s => s | None => empty_of fresh add zero zz end)).
    { assert (KEYS : forall k, In k (map fst rows) <-> exists s, f k = Some s).
      { intros k. rewrite in_map_iff. split.
        - intros ((k1 & s) & <- & I). exists s. apply IN. apply in_map_iff. exists (k1, s). auto.
        - intros (s & Q). apply IN in Q. apply in_map_iff in Q. destruct Q as ((k1 & s1) & Q & I). injection Q as <- <-. exists (k1, s1). auto. }
      intros k v. rewrite Il. cbn [app]. split.
      - intros (r & -> & Fr & Hv). apply Forall2_In_nth in Fr. destruct Fr as (Lk & Hk). rewrite all_cols_length, repeat_length in Lk by exact HL'. split; [exact Lk|]. split; [|exact Hv].
        intros i x Ex. destruct (nth_error (all_cols (map fst rows) (repeat [] n)) i) as [c|] eqn:Ec.
        + specialize (Hk i x c Ex Ec). apply all_cols_nth in Ec; [|exact HL']. destruct Ec as (c0 & E0 & _ & IC). apply nth_error_In in E0. apply repeat_spec in E0. subst c0. apply IC in Hk. destruct Hk as [[]|(k' & Ik & Ek)]. apply KEYS in Ik. destruct Ik as (s & Q). exists k', s. auto.
        + apply nth_error_None in Ec. rewrite all_cols_length, repeat_length in Ec by exact HL'. assert (i < length r) by (apply nth_error_Some; congruence). lia.
      - intros (Lk & Hk & Hv). exists k. split; [reflexivity|]. split; [|exact Hv]. apply Forall2_In_nth. split; [rewrite all_cols_length, repeat_length by exact HL'; exact Lk|]. intros i x c Ex Ec. apply all_cols_nth in Ec; [|exact HL']. destruct Ec as (c0 & _ & _ & IC). apply IC. right.
        destruct (Hk i x Ex) as (k' & s & Q & Ek). exists k'. split; [|exact Ek]. apply KEYS. eauto. }
    exists l. split; [exact El|]. split; [split; [exact Nl|exact CH]|]. split; [|].
    + replace (length hs') with n in Ll by lia; exact Ll.
    + intros (k & v) I. apply CH in I. apply I.
Qed.

Lemma chg_spec {P} (dec : forall p q : P, {p = q} + {p <> q}) (f : P -> option S) k v : chg dec f k v k = Some v /\ forall k', k' <> k -> chg dec f k v k' = f k'.
Proof. split; [apply chg_same|intros k' H; now apply chg_other]. Qed.
Lemma key_of_ok p : length p = n -> valid (key_of adef p) /\ patt (key_of adef p) = p.
Proof.
  intros L. split; [split; cbn [data any key_of]; now rewrite map_length|]. unfold patt, key_of. cbn [data any]. clear L. induction p as [|[x|] p IH]; [reflexivity| |]; cbn [map pattern]; now rewrite IH.
Qed.
Notation LIM := 283301878%N.
Lemma NoDup_map_fst_eq {K V W} (g : K -> K) (h : V -> W) (l : list (K * V)) : map fst (map (fun e => (g (fst e), h (snd e))) l) = map (fun e => g (fst e)) l.
Proof. now rewrite map_map. Qed.
Lemma map_id_pairs {K V} (l : list (K * V)) : map (fun e => (fst e, snd e)) l = l.
Proof. rewrite <- (map_id l) at 2. apply map_ext. now intros []. Qed.
Lemma of_nat_pow a b : N.of_nat (a ^ b) = (N.of_nat a ^ N.of_nat b)%N.
Proof. induction b as [|b IH]; [reflexivity|]. rewrite Nat2N.inj_succ, N.pow_succ_r', <- IH. cbn [Nat.pow]. lia. Qed.
Lemma step_rel o r : forall b c f g mb mc m, BR b f mb -> CR c g mc -> (N.of_nat mb <= m)%N -> (N.of_nat mb + cost n m (o :: r) < LIM)%N -> (N.of_nat mc + cost n m (o :: r) < LIM)%N -> typed n o ->
  exists b' c' out f' g' mb' mc' m', c_step eqb hash adef fresh add zero cube_add opt n (b, c) o = Ok ((b', c'), out)
    /\ cstep eqb fresh add zero cube_add opt n (f, g) o out (f', g')
    /\ BR b' f' mb' /\ CR c' g' mc' /\ (N.of_nat mb' <= m')%N /\ (N.of_nat mb' + cost n m' r < LIM)%N /\ (N.of_nat mc' + cost n m' r < LIM)%N.
Proof.
  intros b c f g mb mc m RB RC Hm Hb Hc T. assert (P2 : N.of_nat (2 ^ n) = (2 ^ N.of_nat n)%N) by apply of_nat_pow.
  destruct o as [k x|k s| |z|p| | |q|t|k| |z| |q]; cbn [c_step cost typed] in *.
  - unfold hts_add. destruct (btouch b f mb k (fun s => add s x) RB ltac:(lia) T) as (b' & E & R'). rewrite E. cbn [bind].
    eexists b', c, _, _, g, (Datatypes.S mb), mc, (m + 1)%N. split; [reflexivity|]. split; [constructor; apply (chg_spec tdec)|]. split; [exact R'|]. split; [exact RC|]. lia.
  - destruct (addToCube_rel c g mc k s RC ltac:(lia) T) as (c' & E & R'). rewrite E. cbn [bind].
    eexists b, c', _, f, _, mb, (mc + 2 ^ n), m. split; [reflexivity|]. split; [constructor; intros p; reflexivity|]. split; [exact RB|]. split; [exact R'|]. lia.
  - destruct (bwalk b f mb RB) as (l & E & LI & VA & _ & LR). rewrite map_id_pairs in LI. rewrite E. cbn [bind].
    assert (length l * 2 ^ n <= mb * 2 ^ n) by (apply Nat.mul_le_mono_r; exact LR). assert (N.of_nat mb * 2 ^ N.of_nat n <= m * 2 ^ N.of_nat n)%N by (apply N.mul_le_mono_r; exact Hm).
    assert (X1 : (N.of_nat (length l * 2 ^ n) <= m * 2 ^ N.of_nat n)%N) by (rewrite <- P2 in *; lia).
    destruct (addAll_rel l c g mc RC) as (c' & E' & R'); [lia|exact VA|]. rewrite E'. cbn [bind].
    eexists b, c', _, f, _, mb, (mc + length l * 2 ^ n), m. split; [reflexivity|]. split; [eapply s_cube; [exact LI|intros p; reflexivity]|]. split; [exact RB|]. split; [exact R'|]. lia.
  - destruct (walkZeros_rel b f mb z RB ltac:(lia)) as (l & E & LI & LR & VA). rewrite E. cbn [bind].
    assert (X1 : (N.of_nat (length l * 2 ^ n) <= m ^ N.of_nat n * 2 ^ N.of_nat n)%N).
    { rewrite Nat2N.inj_mul, P2. apply N.mul_le_mono_r. transitivity (N.of_nat (mb ^ n)); [lia|]. rewrite of_nat_pow. apply N.pow_le_mono_l. exact Hm. }
    destruct (addAll_rel l c g mc RC) as (c' & E' & R'); [lia|exact VA|]. rewrite E'. cbn [bind].
    eexists b, c', _, f, _, mb, (mc + length l * 2 ^ n), m. split; [reflexivity|]. split; [eapply s_zero; [exact LI|intros p; reflexivity]|]. split; [exact RB|]. split; [exact R'|]. lia.
  - destruct (key_of_ok p T) as (V & EP). destruct (ctouch c g mc (key_of adef p) (fun s => s) RC ltac:(lia) V) as (c' & E & R'). rewrite EP in E, R'. rewrite E. cbn [bind].
    eexists b, c', _, f, _, mb, (Datatypes.S mc), m. split; [reflexivity|]. split; [constructor; apply (chg_spec pdec)|]. split; [exact RB|]. split; [exact R'|]. lia.
  - destruct (cwalk c g mc RC) as (l & E & LI & _). rewrite E. cbn [bind]. eexists b, c, _, f, g, mb, mc, m. split; [reflexivity|]. split; [constructor; exact LI|]. split; [exact RB|]. split; [exact RC|]. lia.
  - destruct (cwalk c g mc RC) as (l & E & LI & _ & Sz & _). eexists b, c, _, f, g, mb, mc, m. split; [reflexivity|]. split; [rewrite <- Sz; rewrite <- (map_length (fun e => (patt (fst e), snd e)) l); constructor; exact LI|]. split; [exact RB|]. split; [exact RC|]. lia.
  - destruct (prune_rel (bhash hash) (bequal eqb) (bdef adef n) patt valid bequal_refl bequal_sym bequal_trans bequal_hash c g mc (fun k => q (patt k)) RC) with (q' := q) as (c' & E & R'); [intros a a' _ _ Q; now rewrite Q|reflexivity|].
    unfold patt in E at 1. rewrite E. cbn [bind]. eexists b, c', _, f, _, mb, mc, m. split; [reflexivity|]. split; [constructor; intros p; reflexivity|]. split; [exact RB|]. split; [exact R'|]. lia.
  - exists (if t then hm_clear b else b), (hm_clear c), CNone, (fun k => if t then None else f k), (fun _ => None), mb, mc, m. split; [reflexivity|]. split; [constructor; reflexivity|]. split; [destruct t; [|exact RB]|split; [|lia]].
    + eapply (ER_clear (thash hash) (tuple_equal eqb) [] (fun k => k) tvalid tuple_refl tuple_sym tuple_trans tuple_hash_eq tuple_den). exact RB.
    + eapply (ER_clear (bhash hash) (bequal eqb) (bdef adef n) patt valid bequal_refl bequal_sym bequal_trans bequal_hash bequal_patt). exact RC.
  - destruct (btouch b f mb k (fun s => s) RB ltac:(lia) T) as (b' & E & R'). rewrite E. cbn [bind].
    eexists b', c, _, _, g, (Datatypes.S mb), mc, (m + 1)%N. split; [reflexivity|]. split; [constructor; apply (chg_spec tdec)|]. split; [exact R'|]. split; [exact RC|]. lia.
  - destruct (bwalk b f mb RB) as (l & E & LI & _). rewrite map_id_pairs in LI. rewrite E. cbn [bind]. eexists b, c, _, f, g, mb, mc, m. split; [reflexivity|]. split; [constructor; exact LI|]. split; [exact RB|]. split; [exact RC|]. lia.
  - destruct (walkZeros_rel b f mb z RB ltac:(lia)) as (l & E & LI & LR & VA). rewrite E. cbn [bind]. eexists b, c, _, f, g, mb, mc, m. split; [reflexivity|]. split; [constructor; exact LI|]. split; [exact RB|]. split; [exact RC|]. lia.
  - destruct (bwalk b f mb RB) as (l & E & LI & _ & Sz & _). rewrite map_id_pairs in LI. eexists b, c, _, f, g, mb, mc, m. split; [reflexivity|]. split; [rewrite <- Sz; constructor; exact LI|]. split; [exact RB|]. split; [exact RC|]. lia.
  - destruct (prune_rel (thash hash) (tuple_equal eqb) (repeat adef n) (fun k => k) tvalid tuple_refl tuple_sym tuple_trans tuple_hash_eq b f mb q RB) with (q' := q) as (b' & E & R'); [intros a a' _ _ Q; now rewrite Q|reflexivity|].
    rewrite E. cbn [bind]. eexists b', c, _, _, g, mb, mc, m. split; [reflexivity|]. split; [constructor; intros p; reflexivity|]. split; [exact R'|]. split; [exact RC|]. lia.
Qed.
Lemma run_rel : forall prog b c f g mb mc m, BR b f mb -> CR c g mc -> (N.of_nat mb <= m)%N -> (N.of_nat mb + cost n m prog < LIM)%N -> (N.of_nat mc + cost n m prog < LIM)%N -> Forall (typed n) prog ->
  exists outs st s', c_run eqb hash adef fresh add zero cube_add opt n (b, c) prog = Ok (outs, st) /\ chist eqb fresh add zero cube_add opt n (f, g) prog outs s'.
Proof.
  induction prog as [|o r IH]; intros b c f g mb mc m RB RC Hm Hb Hc T; cbn [c_run].
  - exists [], (b, c), (f, g). split; [reflexivity|constructor].
  - inversion T as [|? ? T1 T2]. subst. destruct (step_rel o r b c f g mb mc m RB RC Hm Hb Hc T1) as (b' & c' & out & f' & g' & mb' & mc' & m' & E & St & RB' & RC' & Hm' & Hb' & Hc'). rewrite E. cbn [bind].
    destruct (IH b' c' f' g' mb' mc' m' RB' RC' Hm' Hb' Hc' T2) as (outs & st & s' & E' & H'). unfold hts, cmap in *. rewrite E'. cbn [bind]. exists (out :: outs), st, s'. split; [reflexivity|econstructor; eauto].
Qed.
Lemma new_rel : exists b c, @c_new A S = Ok (b, c) /\ BR b (fun _ => None) 0 /\ CR c (fun _ => None) 0.
Proof. unfold c_new. eexists _, _. split; [reflexivity|]. split; apply ER_new; reflexivity. Qed.
End C.
