From Coq Require Import List Arith NArith ZArith Bool Lia Permutation ZifyBool ZifyNat ZifyN.
From Verif Require Import Common CommonFacts ListFacts HashTable_Model HashTable_Proofs ConstantString_Spec ConstantString_Model.
Import ListNotations.
Local Open Scope Z_scope.

(** Memory. *)
Lemma write_length : forall d off bs d', write_at d off bs = Ok d' -> length d' = length d.
Proof.
  intros d off bs d' H. unfold write_at in H. destruct (off + length bs <=? length d)%nat eqn:E; [|discriminate]. injection H as <-.
  rewrite !app_length, firstn_length, map_length, skipn_length. lia.
Qed.
Lemma write_ok : forall d off bs, (off + length bs <= length d)%nat -> exists d', write_at d off bs = Ok d'.
Proof. intros d off bs H. unfold write_at. destruct (off + length bs <=? length d)%nat eqn:E; [eauto|lia]. Qed.
Lemma cells_map : forall bs, cells_bytes (map Some bs) = Ok bs.
Proof. induction bs as [|b bs IH]; [reflexivity|]. cbn. now rewrite IH. Qed.
Lemma read_write_same : forall d off bs d', write_at d off bs = Ok d' -> read_at d' off (length bs) = Ok bs.
Proof.
  intros d off bs d' H. unfold read_at. rewrite (write_length _ _ _ _ H). unfold write_at in H.
  destruct (off + length bs <=? length d)%nat eqn:E; [|discriminate]. injection H as <-.
  rewrite skipn_app, firstn_length. replace (off - Nat.min off (length d))%nat with 0%nat by lia.
  rewrite skipn_all2 by (rewrite firstn_length; lia). cbn [app skipn].
  rewrite firstn_app, map_length, Nat.sub_diag, firstn_all2 by (rewrite map_length; lia). rewrite firstn_O, app_nil_r. apply cells_map.
Qed.
Lemma nth_write_before : forall d off bs d' i, write_at d off bs = Ok d' -> (i < off)%nat -> nth_error d' i = nth_error d i.
Proof.
  intros d off bs d' i H L. unfold write_at in H. destruct (off + length bs <=? length d)%nat eqn:E; [|discriminate]. injection H as <-.
  rewrite nth_error_app1 by (rewrite firstn_length; lia). now apply nth_error_firstn_lt.
Qed.
Lemma nth_error_firstn_ge : forall {A} (l : list A) k i, (k <= i)%nat -> nth_error (firstn k l) i = None.
Proof. intros A l k i H. apply nth_error_None. rewrite firstn_length. lia. Qed.
Lemma read_write_before : forall d off bs d' o n, write_at d off bs = Ok d' -> (o + n <= off)%nat -> read_at d' o n = read_at d o n.
Proof.
  intros d off bs d' o n H L. unfold read_at. rewrite (write_length _ _ _ _ H). destruct (o + n <=? length d)%nat; [|reflexivity].
  f_equal. apply nth_error_ext. intros i. destruct (Nat.lt_ge_cases i n).
  - rewrite !nth_error_firstn_lt, !nth_error_skipn by assumption. eapply nth_write_before; eauto. lia.
  - now rewrite !nth_error_firstn_ge by assumption.
Qed.
Lemma cells_app : forall a b x y, cells_bytes a = Ok x -> cells_bytes b = Ok y -> cells_bytes (a ++ b) = Ok (x ++ y).
Proof.
  induction a as [|[c|] a IH]; intros b x y Ha Hb; cbn in *; [injection Ha as <-; exact Hb| |discriminate].
  destruct (cells_bytes a) as [r| | |] eqn:E; try discriminate. injection Ha as <-. cbn. now rewrite (IH b r y eq_refl Hb).
Qed.
Lemma firstn_split : forall {A} (l : list A) n m, firstn (n + m) l = firstn n l ++ firstn m (skipn n l).
Proof. induction l as [|x l IH]; intros [|n] m; cbn; rewrite ?firstn_nil; try reflexivity. now rewrite IH. Qed.
Lemma read_app : forall d o n m x y, read_at d o n = Ok x -> read_at d (o + n) m = Ok y -> read_at d o (n + m) = Ok (x ++ y).
Proof.
  intros d o n m x y H1 H2. unfold read_at in *. destruct (o + n <=? length d)%nat eqn:E1; [|discriminate]. destruct (o + n + m <=? length d)%nat eqn:E2; [|discriminate].
  replace (o + (n + m) <=? length d)%nat with true by lia. rewrite firstn_split, skipn_skipn. replace (n + o)%nat with (o + n)%nat by lia. now apply cells_app.
Qed.
Lemma cells_length : forall l bs, cells_bytes l = Ok bs -> length bs = length l.
Proof.
  induction l as [|[c|] l IH]; intros bs H; cbn in H; [injection H as <-; reflexivity| |discriminate].
  destruct (cells_bytes l) as [r| | |]; try discriminate. injection H as <-. cbn. f_equal. now apply IH.
Qed.
Lemma cells_firstn : forall l bs k, cells_bytes l = Ok bs -> cells_bytes (firstn k l) = Ok (firstn k bs).
Proof.
  induction l as [|[c|] l IH]; intros bs k H; cbn in H.
  - injection H as <-. destruct k; reflexivity.
  - destruct (cells_bytes l) as [r| | |]; try discriminate. injection H as <-. destruct k; [reflexivity|]. cbn. now rewrite (IH r k eq_refl).
  - discriminate.
Qed.
Lemma read_prefix : forall d o n m bs, read_at d o n = Ok bs -> (m <= n)%nat -> read_at d o m = Ok (firstn m bs).
Proof.
  intros d o n m bs H L. unfold read_at in *. destruct (o + n <=? length d)%nat eqn:E1; [|discriminate].
  replace (o + m <=? length d)%nat with true by lia. rewrite <- (cells_firstn _ _ m H). now rewrite firstn_firstn, Nat.min_l.
Qed.

(** Numbers. *)
Lemma bytes_word_bytes : forall v, 0 <= v < 2 ^ 32 -> bytes_word (word_bytes v) = v.
Proof. intros v H. unfold word_bytes, bytes_word. Z.to_euclidean_division_equations. lia. Qed.
Definition short (s : list Z) : Prop := Z.of_nat (length s) < 2 ^ 31 - 16.
Lemma space_used_bounds : forall n, 0 <= n < 2 ^ 31 - 16 -> n + 5 <= space_used n <= n + 8.
Proof.
  intros n H. unfold space_used, to_int, u32. rewrite (Z.mod_small (n + 1)) by lia.
  assert (0 <= (4 - (n + 1) mod 4) mod 4 < 4) by (apply Z.mod_pos_bound; lia).
  rewrite (Z.mod_small (n + 1 + _)) by lia. rewrite Z.mod_small by lia.
  replace (_ <? 2 ^ 31) with true by lia. lia.
Qed.
Lemma u32_small : forall x, 0 <= x < 2 ^ 32 -> u32 x = x.
Proof. intros x H. unfold u32. now apply Z.mod_small. Qed.

(** The three writes of a string. *)
Lemma write3 : forall d off s, (off + 4 + length s + 1 <= length d)%nat ->
  exists d1 d2 d3, write_at d off (word_bytes (Z.of_nat (length s))) = Ok d1 /\ write_at d1 (off + 4) s = Ok d2
    /\ write_at d2 (off + 4 + length s) [0] = Ok d3 /\ length d3 = length d
    /\ read_at d3 off 4 = Ok (word_bytes (Z.of_nat (length s))) /\ read_at d3 (off + 4) (length s + 1) = Ok (s ++ [0])
    /\ (forall o n, (o + n <= off)%nat -> read_at d3 o n = read_at d o n).
Proof.
  intros d off s H. destruct (write_ok d off (word_bytes (Z.of_nat (length s)))) as (d1 & W1); [cbn; lia|].
  assert (L1 := write_length _ _ _ _ W1). destruct (write_ok d1 (off + 4) s) as (d2 & W2); [lia|]. assert (L2 := write_length _ _ _ _ W2).
  destruct (write_ok d2 (off + 4 + length s) [0]) as (d3 & W3); [cbn; lia|]. assert (L3 := write_length _ _ _ _ W3).
  exists d1, d2, d3. repeat (split; [assumption || congruence|]). split; [|split].
  - rewrite (read_write_before _ _ _ _ off 4 W3) by lia. rewrite (read_write_before _ _ _ _ off 4 W2) by lia. apply (read_write_same _ _ _ _ W1).
  - apply read_app.
    + rewrite (read_write_before _ _ _ _ (off + 4) (length s) W3) by lia. apply (read_write_same _ _ _ _ W2).
    + apply (read_write_same _ _ _ _ W3).
  - intros o n L. rewrite (read_write_before _ _ _ _ o n W3) by lia. rewrite (read_write_before _ _ _ _ o n W2) by lia. now rewrite (read_write_before _ _ _ _ o n W1) by lia.
Qed.

(** Hash table. *)
Lemma all_live : forall {D} (h : D -> N) t l c, Live h t l -> (length (chains t) <= length l)%nat -> In c (chains t) -> exists i, In (i, fst c) l.
Proof.
  intros D h t l c (css & fl & R & ->) L H. assert (E := rep_len _ _ _ _ R).
  assert (X := f_equal (@length _) (rep_live_fst _ _ _ _ R)). rewrite map_length in X.
  assert (fl = []) as -> by (destruct fl; [reflexivity|cbn in E; lia]). apply In_nth_error in H as (i & Hi). exists i.
  apply in_live_of. split; [|destruct c as [d n]; eauto].
  assert (P := r_perm _ _ _ _ R). rewrite app_nil_r in P. eapply Permutation_in; [apply Permutation_sym; exact P|]. apply in_seq. apply nth_error_lt in Hi. lia.
Qed.
Lemma Live_hash : forall {D} (h h' : D -> N) t l, Live h t l -> (forall i d, In (i, d) l -> h' d = h d) -> Live h' t l.
Proof.
  intros D h h' t l (css & fl & R & ->) H. exists css, fl. split; [|reflexivity]. destruct R as [R1 R2 R3 R4 R5 R6 R7].
  constructor; try assumption. intros hh c i d n Hc Hi Hn. rewrite <- (R5 hh c i d n Hc Hi Hn). unfold bucket_of. f_equal. f_equal.
  apply (H i d). apply in_live_of. split; [eapply in_concat_nth; eauto|eauto].
Qed.
Lemma deref_of : forall {D} h (t : ht D) l i d, Live h t l -> In (i, d) l -> deref t i = Ok d.
Proof. intros D h t l i d L H. unfold deref. destruct (Live_get h t l i d L H) as (n & E). now rewrite (get_Some _ _ _ E). Qed.

Section cs.
Variable buffer_size : nat.
Variable hashBytes : list Z -> N.

Definition stored (m : pool) (p : ptr) (s : list Z) : Prop :=
  exists b off buf, p = At b off /\ nth_error (buffers m) b = Some buf /\ (4 <= off)%nat
    /\ Z.of_nat (off + length s + 1) <= amt_used buf /\ short s
    /\ read_at (bdata buf) (off - 4) 4 = Ok (word_bytes (Z.of_nat (length s)))
    /\ read_at (bdata buf) off (length s + 1) = Ok (s ++ [0]).
Lemma stored_length : forall m p s, stored m p s -> cs_length m p = Ok (Z.of_nat (length s)).
Proof.
  intros m p s (b & off & buf & -> & E & L & U & Sh & R1 & R2). unfold cs_length, area. rewrite (get_Some _ _ _ E). cbn [bind].
  replace (off <? 4)%nat with false by lia. rewrite R1. cbn [bind]. unfold short in Sh. rewrite bytes_word_bytes by lia. reflexivity.
Qed.
Lemma stored_str : forall m p s, stored m p s -> cs_str m p = Ok s.
Proof.
  intros m p s H. unfold cs_str. rewrite (stored_length m p s H). destruct H as (b & off & buf & -> & E & L & U & Sh & R1 & R2).
  unfold area. cbn [bind]. rewrite (get_Some _ _ _ E). cbn [bind]. rewrite Nat2Z.id.
  rewrite (read_prefix _ _ _ (length s) _ R2) by lia. f_equal. rewrite firstn_app, Nat.sub_diag, firstn_all, firstn_O. apply app_nil_r.
Qed.
(** Buffers only grow: what is in the used part stays. *)
Definition grows (m m' : pool) : Prop := forall b buf, nth_error (buffers m) b = Some buf ->
  exists buf', nth_error (buffers m') b = Some buf' /\ amt_used buf <= amt_used buf'
    /\ forall o n, Z.of_nat (o + n) <= amt_used buf -> read_at (bdata buf') o n = read_at (bdata buf) o n.
Lemma grows_refl : forall m m', buffers m' = buffers m -> grows m m'.
Proof. intros m m' E b buf H. exists buf. rewrite E. split; [exact H|]. split; [lia|reflexivity]. Qed.
Lemma stored_grows : forall m m' p s, grows m m' -> stored m p s -> stored m' p s.
Proof.
  intros m m' p s G (b & off & buf & -> & E & L & U & Sh & R1 & R2). destruct (G b buf E) as (buf' & E' & U' & R').
  exists b, off, buf'. repeat (split; [assumption || lia || reflexivity|]). split; [rewrite R' by lia; exact R1|rewrite R' by lia; exact R2].
Qed.

Definition Inv (m : pool) (K : list (ptr * list Z)) : Prop :=
  (exists l, Live (hteHash hashBytes m) (table m) l /\ Permutation (map snd l) (map fst K))
  /\ (length (chains (table m)) <= length K)%nat /\ tcl_num (table m) = 2%nat /\ tcl_den (table m) = 1%nat
  /\ (forall p s, In (p, s) K -> stored m p s)
  /\ NoDup (map snd K)
  /\ (forall p, empty_string_myptr m = Some p -> In (p, []) K)
  /\ (forall b buf, nth_error (buffers m) b = Some buf -> length (bdata buf) = buffer_size /\ 0 <= amt_used buf <= Z.of_nat buffer_size).

Lemma start_inv : exists m, cs_start = Ok m /\ Inv m [].
Proof.
  eexists. split; [reflexivity|]. unfold Inv. cbn.
  destruct (ht_new_spec (hteHash hashBytes {| buffers := []; table := mk_ht None 0 [] [] 2 1; empty_string_myptr := None; init_buffer := [] |}) 2 1 ltac:(lia) ltac:(lia)) as [_ L].
  split; [exists []; split; [exact L|constructor]|]. repeat split; try lia; try constructor; try (intros; contradiction); try discriminate.
  - destruct b; discriminate.
  - destruct b; discriminate.
  - destruct b; discriminate.
Qed.
(** Moving the invariant to a state with the same table and grown buffers. *)
Lemma inv_same : forall m K m', Inv m K -> grows m m' -> table m' = table m -> empty_string_myptr m' = empty_string_myptr m ->
  (forall b buf, nth_error (buffers m') b = Some buf -> length (bdata buf) = buffer_size /\ 0 <= amt_used buf <= Z.of_nat buffer_size) -> Inv m' K.
Proof.
  intros m K m' ((l & L & P) & C & T1 & T2 & St & ND & Em & B) G Et Ee B'. unfold Inv. rewrite Et, Ee.
  assert (St' : forall p s, In (p, s) K -> stored m' p s) by (intros p s H; eapply stored_grows; eauto).
  split; [|auto 10]. exists l. split; [|exact P]. eapply Live_hash; [exact L|]. intros i p Hi. unfold hteHash.
  assert (I : In p (map fst K)) by (eapply Permutation_in; [exact P|]; apply (in_map snd) in Hi; exact Hi).
  apply in_map_iff in I as ([p' s] & <- & I). cbn [fst]. now rewrite (stored_str m' p' s (St' _ _ I)), (stored_str m p' s (St _ _ I)).
Qed.
Lemma inv_readable : forall m K, Inv m K -> table_readable m = true.
Proof.
  intros m K ((l & L & P) & C & T1 & T2 & St & ND & Em & B). unfold table_readable. apply forallb_forall. intros c Hc.
  assert (Ll : length l = length K) by (apply Permutation_length in P; rewrite !map_length in P; exact P).
  destruct (all_live _ _ _ c L ltac:(lia) Hc) as (i & Hi).
  assert (I : In (fst c) (map fst K)) by (eapply Permutation_in; [exact P|]; apply (in_map snd) in Hi; exact Hi).
  apply in_map_iff in I as ([p s] & E & I). cbn in E. rewrite <- E. unfold readable. now rewrite (stored_str m p s (St _ _ I)).
Qed.
Lemma bytes_eqb_eq : forall a b, bytes_eqb a b = true <-> a = b.
Proof.
  induction a as [|x a IH]; intros [|y b]; cbn; split; intros H; try discriminate; try reflexivity.
  - apply andb_true_iff in H as [H1 H2]. apply Z.eqb_eq in H1. apply IH in H2. congruence.
  - injection H as -> ->. rewrite Z.eqb_refl. now apply IH.
Qed.
Lemma eq_hash_ok : forall m, eq_hash (hteHash hashBytes m) (hteEqual m).
Proof.
  intros m p q. unfold hteEqual, hteHash. destruct (cs_str m p) as [a| | |]; try discriminate. destruct (cs_str m q) as [b| | |]; try discriminate.
  destruct (negb _); [discriminate|]. intros H. apply bytes_eqb_eq in H. congruence.
Qed.
Lemma equal_iff : forall m p q a b, cs_str m p = Ok a -> cs_str m q = Ok b -> hteEqual m p q = true <-> a = b.
Proof.
  intros m p q a b Ha Hb. unfold hteEqual. rewrite Ha, Hb. destruct (Z.eqb_spec (Z.of_nat (length a)) (Z.of_nat (length b))) as [E|E]; cbn [negb].
  - apply bytes_eqb_eq.
  - split; [discriminate|]. intros ->. lia.
Qed.

Lemma set_key_ok : forall ib s, Z.of_nat (length s) < 2 ^ 32 - 8 -> exists ib', set_key ib s (Z.of_nat (length s)) = Ok ib'
  /\ (forall bs t e, cs_str {| buffers := bs; table := t; empty_string_myptr := e; init_buffer := ib' |} Tmp = Ok s).
Proof.
  intros ib s Sh. unfold set_key. rewrite !u32_small by lia. set (ib0 := if _ <? _ then _ else ib).
  assert (L : (0 + 4 + length s + 1 <= length ib0)%nat).
  { unfold ib0. destruct (Z.of_nat (length ib) <? 5 + Z.of_nat (length s)) eqn:E; [rewrite repeat_length; lia|lia]. }
  destruct (write3 ib0 0 s L) as (d1 & d2 & d3 & W1 & W2 & W3 & L3 & R1 & R2 & _). rewrite W1. cbn [bind].
  rewrite Nat2Z.id, firstn_all. cbn [Nat.add] in W2, W3. rewrite W2. cbn [bind]. replace (Z.to_nat (4 + Z.of_nat (length s))) with (4 + length s)%nat by lia.
  exists d3. split; [exact W3|]. intros bs t e. unfold cs_str, cs_length, area. cbn [init_buffer bind]. cbn [Nat.ltb Nat.leb Nat.sub].
  rewrite R1. cbn [bind]. rewrite bytes_word_bytes by lia. rewrite Nat2Z.id. cbn [Nat.add] in R2. rewrite (read_prefix _ _ _ (length s) _ R2) by lia.
  f_equal. rewrite firstn_app, Nat.sub_diag, firstn_all, firstn_O. apply app_nil_r.
Qed.
Lemma find_room_spec : forall bs need i j, find_room buffer_size bs need i = Some j ->
  exists buf, (i <= j)%nat /\ nth_error bs (j - i) = Some buf /\ need <= Z.of_nat buffer_size - amt_used buf.
Proof.
  induction bs as [|b r IH]; intros need i j H; [discriminate|]. cbn [find_room] in H. destruct (need <=? _) eqn:E.
  - injection H as <-. exists b. rewrite Nat.sub_diag. split; [lia|]. split; [reflexivity|lia].
  - apply IH in H as (buf & L & H & N). exists buf. split; [lia|]. split; [|exact N]. now replace (j - i)%nat with (S (j - S i)) by lia.
Qed.
Lemma find_room_app : forall bs need i b, need <= Z.of_nat buffer_size - amt_used b -> find_room buffer_size (bs ++ [b]) need i <> None.
Proof.
  induction bs as [|x r IH]; intros need i b H; cbn [find_room app].
  - replace (need <=? _) with true by lia. discriminate.
  - destruct (need <=? _); [discriminate|]. now apply IH.
Qed.

Definition good (m : pool) (K : list (ptr * list Z)) (s : list Z) (r : res (pool * ptr)) : Prop :=
  exists m' p K', r = Ok (m', p) /\ Inv m' K' /\ In (p, s) K' /\ (length K' <= S (length K))%nat /\ incl K K'.

Lemma place_ok : forall m K s i, Inv m K -> short s -> ~ In s (map snd K) -> (N.of_nat (length K) < 2 * max_prime)%N ->
  find_room buffer_size (buffers m) (space_used (Z.of_nat (length s))) 0 = Some i ->
  good m K s (place hashBytes m i s (Z.of_nat (length s))).
Proof.
  intros m K s i I Sh NI Room F. assert (Sp := space_used_bounds (Z.of_nat (length s))). unfold short in Sh.
  apply find_room_spec in F as (buf & _ & Hb & Fit). rewrite Nat.sub_0_r in Hb.
  assert (II := I). destruct II as ((l & L & P) & C & T1 & T2 & St & ND & Em & B). destruct (B i buf Hb) as [Ld Us].
  unfold place. rewrite (get_Some _ _ _ Hb). cbn [bind]. set (off := Z.to_nat (amt_used buf)) in *.
  destruct (write3 (bdata buf) off s ltac:(lia)) as (d1 & d2 & d3 & W1 & W2 & W3 & L3 & R1 & R2 & R3).
  rewrite Nat2Z.id, firstn_all. rewrite W1. cbn [bind]. rewrite W2. cbn [bind]. rewrite W3. cbn [bind]. cbv zeta.
  set (buf' := {| bdata := d3; amt_used := amt_used buf + space_used (Z.of_nat (length s)) |}).
  set (p := At i (off + 4)). set (em := if Z.of_nat (length s) =? 0 then Some p else empty_string_myptr m).
  set (m1 := {| buffers := upd (buffers m) i buf'; table := table m; empty_string_myptr := em; init_buffer := init_buffer m |}).
  set (m0 := {| buffers := upd (buffers m) i buf'; table := table m; empty_string_myptr := empty_string_myptr m; init_buffer := init_buffer m |}).
  assert (Li : (i < length (buffers m))%nat) by now apply nth_error_lt in Hb.
  assert (G : grows m m1).
  { intros b bf Hbf. unfold m1. cbn [buffers]. destruct (Nat.eq_dec i b) as [<-|N].
    - rewrite nth_error_upd_eq by exact Li. exists buf'. split; [reflexivity|]. rewrite Hb in Hbf. injection Hbf as <-. unfold buf'. cbn [amt_used bdata].
      split; [lia|]. intros o n Lo. apply R3. lia.
    - rewrite nth_error_upd_neq by exact N. exists bf. split; [exact Hbf|]. split; [lia|reflexivity]. }
  assert (Bu : forall b bf, nth_error (buffers m1) b = Some bf -> length (bdata bf) = buffer_size /\ 0 <= amt_used bf <= Z.of_nat buffer_size).
  { intros b bf Hbf. unfold m1 in Hbf. cbn [buffers] in Hbf. destruct (Nat.eq_dec i b) as [<-|N].
    - rewrite nth_error_upd_eq in Hbf by exact Li. injection Hbf as <-. unfold buf'. cbn. split; [congruence|lia].
    - rewrite nth_error_upd_neq in Hbf by exact N. eauto. }
  assert (I0 : Inv m0 K) by (eapply inv_same; [exact I|exact G|reflexivity|reflexivity|exact Bu]).
  assert (Sp1 : stored m1 p s).
  { exists i, (off + 4)%nat, buf'. split; [reflexivity|]. unfold m1. cbn [buffers]. rewrite nth_error_upd_eq by exact Li. split; [reflexivity|]. unfold buf'. cbn [amt_used bdata].
    split; [lia|]. split; [lia|]. split; [exact Sh|]. split; [replace (off + 4 - 4)%nat with off by lia; exact R1|exact R2]. }
  assert (RT : table_readable m1 = true) by exact (inv_readable m0 K I0).
  assert (RP : readable m1 p = true) by (unfold readable; now rewrite (stored_str _ _ _ Sp1)). rewrite RT, RP. cbn [andb negb].
  assert (L1 : Live (hteHash hashBytes m1) (table m) l).
  { eapply Live_hash; [exact L|]. intros j q Hq. unfold hteHash. assert (Iq : In q (map fst K)) by (eapply Permutation_in; [exact P|]; apply (in_map snd) in Hq; exact Hq).
    apply in_map_iff in Iq as ([q' s'] & <- & Iq). cbn [fst]. rewrite (stored_str m q' s' (St _ _ Iq)). now rewrite (stored_str m1 q' s' (stored_grows _ _ _ _ G (St _ _ Iq))). }
  change (table m1) with (table m). unfold ht_add. destruct (internalAdd_spec (hteHash hashBytes m1) (table m) l p L1) as [(t' & l' & j & E & L' & P' & Hlen & Hpos & Hn & Hd)|(E & Fu)].
  2:{ exfalso. unfold table_full in Fu. rewrite T1, T2 in Fu. lia. }
  rewrite E. cbn [bind]. eexists. exists p, ((p, s) :: K). split; [reflexivity|]. split; [|split; [now left|split; [cbn; lia|intros x Hx; now right]]].
  unfold Inv. cbn [table buffers empty_string_myptr]. split; [|split; [cbn; lia|]].
  - exists l'. split; [exact L'|]. rewrite P'. cbn. now constructor.
  - split; [congruence|]. split; [congruence|]. split; [|split; [|split]].
    + intros q s' [H|H]; [injection H as <- <-; exact Sp1|]. exact (stored_grows _ _ _ _ G (St _ _ H)).
    + cbn. now constructor.
    + unfold m1, em. cbn [empty_string_myptr]. intros q. destruct (Z.eqb_spec (Z.of_nat (length s)) 0) as [Z0|Z0].
      * intros H. injection H as <-. left. f_equal. destruct s; [reflexivity|cbn in Z0; lia].
      * intros H. right. now apply Em.
    + exact Bu.
Qed.

Lemma round : forall f m K s, Inv m K -> short s -> (N.of_nat (length K) < 2 * max_prime)%N ->
  good m K s (init buffer_size hashBytes (S f) m s (Z.of_nat (length s)))
  \/ (find_room buffer_size (buffers m) (space_used (Z.of_nat (length s))) 0 = None /\
      exists ib, init buffer_size hashBytes (S f) m s (Z.of_nat (length s)) =
        let! _ := invariant (space_used (Z.of_nat (length s)) <? Z.of_nat (buffer_size / 64)) in
        init buffer_size hashBytes f {| buffers := buffers m ++ [{| bdata := repeat None buffer_size; amt_used := 0 |}]; table := table m;
                    empty_string_myptr := empty_string_myptr m; init_buffer := ib |} s (Z.of_nat (length s))).
Proof.
  intros f m K s I Sh Room. cbn [init]. assert (II := I). destruct II as (_ & _ & _ & _ & St & ND & Em & B).
  destruct (if Z.of_nat (length s) =? 0 then empty_string_myptr m else None) as [p|] eqn:E0.
  { left. destruct (Z.eqb_spec (Z.of_nat (length s)) 0) as [Z0|]; [|discriminate]. assert (s = []) as -> by (destruct s; [reflexivity|cbn in Z0; lia]).
    exists m, p, K. split; [reflexivity|]. split; [exact I|]. split; [now apply Em|]. split; [lia|apply incl_refl]. }
  destruct (set_key_ok (init_buffer m) s ltac:(unfold short in Sh; lia)) as (ib & Ek & Hib). rewrite Ek. cbn [bind]. cbv zeta.
  set (m1 := {| buffers := buffers m; table := table m; empty_string_myptr := empty_string_myptr m; init_buffer := ib |}).
  assert (I1 : Inv m1 K) by (eapply inv_same; [exact I|apply grows_refl; reflexivity|reflexivity|reflexivity|exact B]).
  rewrite (inv_readable m1 K I1). assert (ST : cs_str m1 Tmp = Ok s) by apply Hib. assert (RD : readable m1 Tmp = true) by (unfold readable; now rewrite ST). rewrite RD. cbn [andb negb].
  assert (II := I1). destruct II as ((l & L & P) & C & T1 & T2 & St1 & _ & _ & _).
  destruct (ht_lookup_live (hteHash hashBytes m1) (hteEqual m1) (table m1) l Tmp (eq_hash_ok m1) L) as [(i & p & E & Hi & Eq)|(E & Hn)]; rewrite E; cbn [bind].
  - left. rewrite (deref_of _ _ _ _ _ L Hi). cbn [bind]. assert (Ip : In p (map fst K)) by (eapply Permutation_in; [exact P|]; apply (in_map snd) in Hi; exact Hi).
    apply in_map_iff in Ip as ([p' s'] & E' & Ip). cbn in E'. subst p'. apply (equal_iff m1 Tmp p s s' ST (stored_str _ _ _ (St1 _ _ Ip))) in Eq. subst s'.
    exists m1, p, K. split; [reflexivity|]. split; [exact I1|]. split; [exact Ip|]. split; [lia|apply incl_refl].
  - assert (NI : ~ In s (map snd K)).
    { intros H. apply in_map_iff in H as ([p s'] & E' & Ip). cbn in E'. subst s'.
      assert (Il : In p (map snd l)) by (eapply Permutation_in; [apply Permutation_sym; exact P|]; apply (in_map fst) in Ip; exact Ip).
      apply in_map_iff in Il as ([i p'] & E' & Il). cbn in E'. subst p'. apply Hn in Il.
      assert (hteEqual m1 Tmp p = true) by (apply (equal_iff m1 Tmp p s s ST (stored_str _ _ _ (St1 _ _ Ip))); reflexivity). congruence. }
    change (buffers m1) with (buffers m). change (table m1) with (table m). change (init_buffer m1) with ib. change (empty_string_myptr m1) with (empty_string_myptr m).
    destruct (find_room buffer_size (buffers m) (space_used (Z.of_nat (length s))) 0) as [i|] eqn:F.
    + left. destruct (place_ok m1 K s i I1 Sh NI Room F) as (m' & p & K' & H). exists m', p, K'. exact H.
    + right. split; [reflexivity|]. exists ib. reflexivity.
Qed.
Lemma create_ok : forall m K s, Inv m K -> short s -> (N.of_nat (length K) < 2 * max_prime)%N ->
  good m K s (create buffer_size hashBytes m s)
  \/ (create buffer_size hashBytes m s = Abort /\ (buffer_size / 64 <= length s + 8)%nat).
Proof.
  intros m K s I Sh Room. unfold create. assert (ShZ := Sh). unfold short in ShZ. rewrite u32_small by lia.
  destruct (round 1 m K s I Sh Room) as [H|(F & ib & E)]; [left; exact H|]. rewrite E. clear E.
  assert (Sp := space_used_bounds (Z.of_nat (length s)) ltac:(lia)).
  destruct (space_used (Z.of_nat (length s)) <? Z.of_nat (buffer_size / 64)) eqn:Q; cbn [invariant bind]; [|right; split; [reflexivity|lia]].
  set (m2 := {| buffers := buffers m ++ _ |}). left.
  assert (Big : (buffer_size / 64 <= buffer_size)%nat) by (pose proof (Nat.div_mul_le buffer_size 1 64 ltac:(lia)); apply Nat.div_le_upper_bound; lia).
  assert (I2 : Inv m2 K).
  { eapply inv_same; [exact I| |reflexivity|reflexivity|].
    - intros b buf H. exists buf. unfold m2. cbn [buffers]. rewrite nth_error_app1 by now apply nth_error_lt in H. split; [exact H|]. split; [lia|reflexivity].
    - intros b buf H. unfold m2 in H. cbn [buffers] in H. destruct (Nat.lt_ge_cases b (length (buffers m))) as [Lb|Lb].
      + rewrite nth_error_app1 in H by exact Lb. destruct I as (_ & _ & _ & _ & _ & _ & _ & B). eauto.
      + rewrite nth_error_app2 in H by exact Lb. destruct (b - length (buffers m))%nat as [|[|]]; cbn in H; try discriminate. injection H as <-. cbn. rewrite repeat_length. lia. }
  destruct (round 0 m2 K s I2 Sh Room) as [H|(F2 & _)]; [exact H|]. exfalso. revert F2. apply find_room_app. cbn [amt_used]. lia.
Qed.

(** Histories. *)
Lemma history_ok : forall ss m K, Inv m K -> Forall short ss -> (N.of_nat (length K + length ss) <= 2 * max_prime)%N ->
  match exec_ops (create buffer_size hashBytes) m ss with
  | Ok m' => exists K' ps, Inv m' K' /\ incl K K' /\ run_ops (create buffer_size hashBytes) m ss = map Ok ps
      /\ Forall2 (fun s p => In (p, s) K') ss ps
  | Abort => exists s, In s ss /\ (buffer_size / 64 <= length s + 8)%nat
  | _ => False
  end.
Proof.
  induction ss as [|s ss IH]; intros m K I F Room; cbn [exec_ops run_ops].
  - exists K, []. split; [exact I|]. split; [apply incl_refl|]. split; [reflexivity|constructor].
  - cbn [length] in Room. inversion F as [|? ? F1 F2]; subst. destruct (create_ok m K s I F1 ltac:(lia)) as [(m' & p & K' & -> & I' & Ip & Lk & In')|(-> & H)]; cbn [bind].
    + specialize (IH m' K' I' F2 ltac:(lia)). destruct (exec_ops (create buffer_size hashBytes) m' ss) as [m''| | |]; try contradiction.
      * destruct IH as (K'' & ps & I'' & In'' & -> & H). exists K'', (p :: ps). split; [exact I''|]. split; [intros x Hx; auto|]. split; [reflexivity|]. constructor; auto.
      * destruct IH as (s' & Hs & H). exists s'. split; [now right|exact H].
    + exists s. split; [now left|exact H].
Qed.
Lemma known_same : forall m K p q s s', Inv m K -> In (p, s) K -> In (q, s') K -> (p = q <-> s = s').
Proof.
  intros m K p q s s' (_ & _ & _ & _ & St & ND & _) H H'. split.
  - intros <-. assert (E1 := stored_str _ _ _ (St _ _ H)). assert (E2 := stored_str _ _ _ (St _ _ H')). congruence.
  - intros <-. clear St. induction K as [|[p0 s0] K IH]; [destruct H|]. cbn in ND. inversion ND as [|? ? N1 N2]; subst.
    destruct H as [H|H], H' as [H'|H']; try congruence; [| |now apply IH].
    + injection H as -> ->. exfalso. apply N1. apply (in_map snd) in H'. exact H'.
    + injection H' as -> ->. exfalso. apply N1. apply (in_map snd) in H. exact H.
Qed.

(** compare. *)
Lemma memcmp_lt : forall a b, no_nul a -> no_nul b -> 
  let n := S (Nat.min (length a) (length b)) in
  (memcmp (firstn n (a ++ [0])) (firstn n (b ++ [0])) < 0 <-> bytes_lt a b)
  /\ (memcmp (firstn n (a ++ [0])) (firstn n (b ++ [0])) = 0 <-> a = b)
  /\ (memcmp (firstn n (a ++ [0])) (firstn n (b ++ [0])) > 0 <-> bytes_lt b a).
Proof.
  induction a as [|x a IH]; intros [|y b] Na Nb; cbv zeta.
  - cbn. split; [split; [lia|intros H; inversion H]|]. split; [tauto|]. split; [lia|intros H; inversion H].
  - inversion Nb as [|? ? Hy Nb']; subst. cbn. replace (0 <? y) with true by lia.
    split; [split; [constructor|lia]|]. split; [split; [lia|discriminate]|]. split; [lia|intros H; inversion H].
  - inversion Na as [|? ? Hx Na']; subst. cbn. replace (x <? 0) with false by lia. replace (0 <? x) with true by lia.
    split; [split; [lia|intros H; inversion H]|]. split; [split; [lia|discriminate]|]. split; [constructor|lia].
  - inversion Na as [|? ? Hx Na']; subst. inversion Nb as [|? ? Hy Nb']; subst. cbn [length Nat.min]. set (n := S (Nat.min (length a) (length b))).
    cbn [app firstn memcmp]. destruct (x <? y) eqn:E1; [|destruct (y <? x) eqn:E2].
    + split; [split; [constructor; lia|lia]|]. split; [split; [lia|injection 1; lia]|]. split; [lia|intros H; inversion H; subst; lia].
    + split; [split; [lia|intros H; inversion H; subst; lia]|]. split; [split; [lia|injection 1; lia]|]. split; [constructor; lia|lia].
    + assert (x = y) as -> by lia. destruct (IH b Na' Nb') as (H1 & H2 & H3). fold n in H1, H2, H3.
      split; [rewrite H1; split; [now constructor|intros H; inversion H; subst; [lia|assumption]]|].
      split; [rewrite H2; split; congruence|]. rewrite H3. split; [now constructor|intros H; inversion H; subst; [lia|assumption]].
Qed.
Lemma compare_ok : forall m K p q s s', Inv m K -> In (p, s) K -> In (q, s') K ->
  compare m p q = Ok (memcmp (firstn (S (Nat.min (length s) (length s'))) (s ++ [0])) (firstn (S (Nat.min (length s) (length s'))) (s' ++ [0]))).
Proof.
  intros m K p q s s' (_ & _ & _ & _ & St & _) H H'. apply St in H. apply St in H'. unfold compare.
  rewrite (stored_length _ _ _ H), (stored_length _ _ _ H'). cbn [bind].
  destruct H as (b & off & buf & -> & E & L & U & Sh & R1 & R2). destruct H' as (b' & off' & buf' & -> & E' & L' & U' & Sh' & R1' & R2').
  unfold short in *. unfold area. rewrite (get_Some _ _ _ E), (get_Some _ _ _ E'). cbn [bind].
  assert (Ec : to_int ((if Z.of_nat (length s) <? Z.of_nat (length s') then Z.of_nat (length s) else Z.of_nat (length s')) + 1) = Z.of_nat (S (Nat.min (length s) (length s')))).
  { destruct (Z.of_nat (length s) <? Z.of_nat (length s')) eqn:Q; unfold to_int; rewrite Z.mod_small by lia; cbv zeta; replace (_ <? 2 ^ 31) with true by lia; lia. }
  rewrite Ec, Nat2Z.id. rewrite (read_prefix _ _ _ (S (Nat.min (length s) (length s'))) _ R2) by lia. cbn [bind].
  rewrite (read_prefix _ _ _ (S (Nat.min (length s) (length s'))) _ R2') by lia. reflexivity.
Qed.
End cs.
