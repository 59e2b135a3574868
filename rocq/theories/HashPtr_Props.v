(** C85: pointers and references into a HashTable and a HashMap. *)
From Coq Require Import List Arith NArith Lia Bool.
From Verif Require Import Common CommonFacts HashTable_Model HashTable_Spec HashTable_Proofs HashPtr_Model HashPtr_Spec HashPtr_Proofs.
Import ListNotations.

(** A pointer that add, addOrReplace or lookup returned keeps pointing to its element, and shows
    what was last written through it, as long as the element is not removed and the table
    holds no more elements than the capacity it had when the pointer was returned. *)
Theorem C85_pointer_partial :
  forall (D : Type) (hashfn : D -> N) (equal : D -> D -> bool) (default : D) (grow : nat -> nat) s p d prog s',
  (forall a b, equal a b = true -> hashfn a = hashfn b) -> (forall n, n < grow n) ->
  obtained hashfn equal default grow s p d ->
  run hashfn equal default grow s prog s' ->
  (forall pre o post, prog = pre ++ CTab o :: post -> spares equal o (last_written p d pre)) ->
  (forall pre post s1, prog = pre ++ post -> run hashfn equal default grow s pre s1 -> ht_size (vtab s1) <= vcap s) ->
  vderef s' p = Ok (last_written p d prog).
Proof.
  intros D hashfn equal default grow s p d prog s' EH GR Ob R Sp Fit.
  destruct (obtained_holds hashfn equal default grow EH GR s p d Ob) as (l & i & Hl & -> & I).
  destruct (kept_holds hashfn equal default grow EH GR s prog s' R l i d (vcap s) Hl I (le_n _) Sp Fit) as (l' & H' & I' & St).
  rewrite <- St at 1. exact (vderef_holds hashfn s' l' i _ H' I').
Qed.
Print Assumptions C85_pointer_partial.

(** reserve(n) makes room for n elements, and the room never becomes less. *)
Theorem C85_room :
  forall (D : Type) (hashfn : D -> N) (equal : D -> D -> bool) (default : D) (grow : nat -> nat) s,
  (forall a b, equal a b = true -> hashfn a = hashfn b) -> (forall n, n < grow n) ->
  vreachable hashfn equal default grow s ->
  ht_size (vtab s) <= vcap s
  /\ (forall prog s', run hashfn equal default grow s prog s' -> vcap s <= vcap s')
  /\ (forall n s' out, vstep hashfn equal default grow s (TReserve n) = Ok (s', out) -> (n <= N.of_nat (vcap s'))%N).
Proof.
  intros D hashfn equal default grow s EH GR V.
  destruct (vreachable_holds hashfn equal default grow EH GR s V) as (l & Hl). split; [|split].
  - destruct Hl as [L C]. unfold ht_size. lia.
  - intros prog s' R. destruct (run_holds hashfn equal default grow EH GR s prog s' R l Hl) as (_ & _ & C). exact C.
  - intros n s' out E. unfold vstep in E. destruct (ht_step hashfn equal default (vtab s) (TReserve n)) as [[t o]| | |]; try discriminate.
    cbn [bind] in E. injection E as <- _. unfold reserved. destruct (N.ltb_spec (N.of_nat (vcap s)) n); cbn [vcap]; lia.
Qed.
Print Assumptions C85_room.

(** add( *p ) of an element of the same table adds a copy of it, even when the table moves. *)
Theorem C85_add_own :
  forall (D : Type) (hashfn : D -> N) (equal : D -> D -> bool) (default : D) (grow : nat -> nat) s p d,
  (forall a b, equal a b = true -> hashfn a = hashfn b) -> (forall n, n < grow n) ->
  obtained hashfn equal default grow s p d ->
  vadd_ref hashfn grow s p = vadd hashfn grow s d.
Proof.
  intros D hashfn equal default grow s p d EH GR Ob.
  destruct (obtained_holds hashfn equal default grow EH GR s p d Ob) as (l & i & Hl & -> & I).
  exact (add_ref hashfn grow s l i d Hl I).
Qed.
Print Assumptions C85_add_own.

(** The statement m[a] = m[b] on a map with room for two more elements is safe, whichever side
    is evaluated first, and gives m[a] the value of m[b]. *)
Definition value_of {K V : Type} (khash : K -> N) (kequal : K -> K -> bool) (dv : V) (s : vt (K * V)) (k : K) : res V :=
  let! o := vlookup (phash khash) (pequal kequal) s (k, dv) in
  match o with None => Ok dv | Some p => let! x := vderef s p in Ok (snd x) end.

Section Assign.
Context {K V : Type}.
Variable khash : K -> N.
Variable kequal : K -> K -> bool.
Variable dv : V.
Variable grow : nat -> nat.
Hypothesis EH : forall a b, kequal a b = true -> khash a = khash b.
Hypothesis GR : forall n, n < grow n.
Notation holds := (holds (phash khash)).
Let PEH : forall a b, pequal kequal a b = true -> phash (V := V) khash a = phash khash b := fun a b => EH (fst a) (fst b).

Definition limit (s : vt (K * V)) : Prop :=
  (N.of_nat (tcl_num (vtab s)) * largest_table <= N.of_nat (vcap s) * N.of_nat (tcl_den (vtab s)))%N.
Lemma index_total (s : vt (K * V)) l k : holds s l ->
  exists v, value_of khash kequal dv s k = Ok v /\
  ((exists s' i k' l', vindex khash kequal dv grow s k = Ok (s', mk_ptr (vstore s') i) /\ holds s' l' /\ In (i, (k', v)) l'
    /\ vcap s <= vcap s' /\ ht_size (vtab s') <= S (ht_size (vtab s))
    /\ (ht_size (vtab s) < vcap s -> vstore s' = vstore s /\ vcap s' = vcap s) /\ incl l l'
    /\ tcl_num (vtab s') = tcl_num (vtab s) /\ tcl_den (vtab s') = tcl_den (vtab s))
   \/ (vindex khash kequal dv grow s k = Abort /\ limit s)).
Proof.
  intros Hl. unfold vindex, value_of.
  destruct (ht_lookup_live _ _ _ _ (k, dv) PEH (proj1 Hl)) as [(i & [k' v'] & Lk & I & _)|[Lk _]]; unfold vlookup; rewrite Lk; cbn [bind option_map].
  - exists v'. rewrite (vderef_holds _ _ _ _ _ Hl I). split; [reflexivity|]. left.
    exists s, i, k', l. split; [reflexivity|]. split; [exact Hl|]. split; [exact I|]. split; [lia|]. split; [lia|]. split; [auto|].
    split; [apply incl_refl|auto].
  - exists dv. split; [reflexivity|]. unfold vadd, ht_add.
    destruct (internalAdd_spec _ _ _ (k, dv) (proj1 Hl)) as [(t & l0 & i & A & _ & _ & _ & _ & T1 & T2)|[A F]]; rewrite A; cbn [bind].
    + left. destruct (add_keep _ _ _ _ _ _ (proj1 Hl) A) as (l1 & L1 & P & Q).
      destruct (pushed_holds _ _ GR s l t l1 Hl L1 ltac:(lia)) as (Ho & C & T & St).
      exists (pushed grow s t), i, k, l1. split; [reflexivity|]. split; [exact Ho|].
      split; [apply (Permutation.Permutation_in _ (Permutation.Permutation_sym P)); left; reflexivity|]. split; [exact C|].
      destruct (Live_size _ _ _ L1) as [S1 _]. destruct (Live_size _ _ _ (proj1 Hl)) as [S0 _].
      pose proof (Permutation.Permutation_length P) as Lp. cbn [length] in Lp. rewrite T. split; [lia|]. split; [|split; [|auto]].
      * intros Z. assert (Le : length (chains t) <= vcap s) by (destruct Hl as [_ Hc]; destruct Q as [Q|[Q1 Q2]]; lia).
        split; [exact (St Le)|]. unfold pushed. apply Nat.ltb_ge in Le. rewrite Le. reflexivity.
      * intros x I. apply (Permutation.Permutation_in _ (Permutation.Permutation_sym P)). right. exact I.
    + right. split; [reflexivity|]. unfold limit. destruct Hl as [_ Hc]. unfold table_full in F.
      change largest_table with max_prime. nia.
Qed.
Lemma store_holds (s : vt (K * V)) l i k v v' : holds s l -> In (i, (k, v)) l ->
  exists s', store_value s (mk_ptr (vstore s) i) v' = Ok s' /\ vderef s' (mk_ptr (vstore s) i) = Ok (k, v').
Proof.
  intros Hl I. unfold store_value. rewrite (vderef_holds _ _ _ _ _ Hl I). cbn [bind fst].
  destruct (set_data_live (phash khash) _ _ _ _ (k, v') (proj1 Hl) I eq_refl) as (t' & l1 & l2 & E & _).
  assert (W : exists s', vwrite s (mk_ptr (vstore s) i) (k, v') = Ok s').
  { unfold vwrite. cbn [p_store p_slot]. rewrite Nat.eqb_refl. unfold set_data in E.
    destruct (get (chains (vtab s)) i) as [[d0 n0]| | |]; try discriminate. cbn [bind] in *.
    destruct (put (chains (vtab s)) i ((k, v'), n0)) as [cs| | |]; try discriminate. cbn [bind]. eauto. }
  destruct W as (s' & W). exists s'. split; [exact W|].
  destruct (vwrite_keep _ s l i (k, v) (k, v') s' Hl I eq_refl W) as (l3 & l4 & _ & H' & _ & St). rewrite <- St.
  apply (vderef_holds _ _ _ _ _ H'). apply in_elt.
Qed.
End Assign.

Theorem C85_assign_partial :
  forall (K V : Type) (khash : K -> N) (kequal : K -> K -> bool) (dk : K) (dv : V) (grow : nat -> nat) (left_first : bool) s s1 a b v,
  (forall a b, kequal a b = true -> khash a = khash b) -> (forall n, n < grow n) ->
  vreachable (phash khash) (pequal kequal) (dk, dv) grow s ->
  S (S (ht_size (vtab s))) <= vcap s ->
  (* [v] is the value of m[b] when that is evaluated *)
  (if left_first then exists p, vindex khash kequal dv grow s a = Ok (s1, p) else s1 = s) ->
  value_of khash kequal dv s1 b = Ok v ->
  (exists s' p k, assign khash kequal dv grow left_first s a b = Ok (s', p) /\ vderef s' p = Ok (k, v))
  \/ (assign khash kequal dv grow left_first s a b = Abort /\ limit s).
Proof.
  intros K V khash kequal dk dv grow left_first s s1 a b v EH GR Vr Room S1 Ev.
  destruct (vreachable_holds _ _ _ grow (fun x y => EH (fst x) (fst y)) GR s Vr) as (l & Hl).
  destruct left_first; unfold assign.
  - destruct S1 as (p1 & X1).
    destruct (index_total khash kequal dv grow EH GR s l a Hl) as (va & _ & [(s2 & i & ka & l2 & E2 & H2 & I2 & C2 & Z2 & St2 & Inc2 & T2)|[E2 _]]);
      rewrite E2 in X1; [|discriminate]. injection X1 as <- <-. rewrite E2. cbn [bind].
    destruct (St2 ltac:(lia)) as [St2a St2b].
    destruct (index_total khash kequal dv grow EH GR s2 l2 b H2) as (vb & Eb & [(s3 & j & kb & l3 & E3 & H3 & I3 & C3 & Z3 & St3 & Inc3 & T3)|[E3 F]]);
      rewrite Eb in Ev; injection Ev as ->; rewrite E3; cbn [bind].
    + left. rewrite (vderef_holds _ _ _ _ _ H3 I3). cbn [bind snd]. destruct (St3 ltac:(lia)) as [St3a _]. rewrite <- St3a.
      destruct (store_holds khash s3 l3 i ka va v H3 (Inc3 _ I2)) as (s4 & W & Dr). rewrite W. cbn [bind]. eauto.
    + right. split; [reflexivity|]. unfold limit in *. destruct T2 as [T2a T2b]. rewrite St2b, T2a, T2b in F. exact F.
  - subst s1.
    destruct (index_total khash kequal dv grow EH GR s l b Hl) as (vb & Eb & [(s2 & j & kb & l2 & E2 & H2 & I2 & C2 & Z2 & St2 & Inc2 & T2)|[E2 F]]);
      rewrite Eb in Ev; injection Ev as ->; rewrite E2; cbn [bind]; [|right; auto].
    destruct (St2 ltac:(lia)) as [St2a St2b].
    destruct (index_total khash kequal dv grow EH GR s2 l2 a H2) as (va & _ & [(s3 & i & ka & l3 & E3 & H3 & I3 & C3 & Z3 & St3 & Inc3 & T3)|[E3 F]]);
      rewrite E3; cbn [bind].
    + left. destruct (St3 ltac:(lia)) as [St3a _]. rewrite <- St3a.
      rewrite (vderef_holds _ _ _ _ _ H3 (Inc3 _ I2)). cbn [bind snd].
      destruct (store_holds khash s3 l3 i ka va v H3 I3) as (s4 & W & Dr). rewrite W. cbn [bind]. eauto.
    + right. split; [reflexivity|]. unfold limit in *. destruct T2 as [T2a T2b]. rewrite St2b, T2a, T2b in F. exact F.
Qed.
Print Assumptions C85_assign_partial.

(** Examples: numbers hashed to themselves, in a vector that doubles *)
Definition h_id (n : nat) : N := N.of_nat n.
Definition doubling (n : nat) : nat := Nat.max 1 (n + n).
Lemma doubling_grows n : n < doubling n.
Proof. unfold doubling. lia. Qed.
Fixpoint vops (s : vt nat) (ops : list (top nat)) : res (vt nat) :=
  match ops with
  | [] => Ok s
  | o :: r => let! (s, _) := vstep h_id Nat.eqb 0 doubling s o in vops s r
  end.
Lemma vops_run ops : forall s s', vops s ops = Ok s' -> run h_id Nat.eqb 0 doubling s (map CTab ops) s'.
Proof.
  induction ops as [|o ops IH]; intros s s' E; cbn [vops map] in *; [injection E as <-; constructor|].
  destruct (vstep h_id Nat.eqb 0 doubling s o) as [[s1 out]| | |] eqn:X; try discriminate. cbn [bind] in E.
  exact (run_op _ _ _ _ _ _ _ _ _ _ X (IH _ _ E)).
Qed.
Definition vmade (ops : list (top nat)) : res (vt nat) := let! s := vnew 2 1 in vops s ops.
Lemma vmade_reachable ops s : vmade ops = Ok s -> vreachable h_id Nat.eqb 0 doubling s.
Proof. intros E. exists 2, 1, (mk_vt (mk_ht None 0 [] [] 2 1) 0 0), (map CTab ops). split; [reflexivity|]. exact (vops_run _ _ _ E). Qed.

(** After reserve(4): a pointer to 7, then additions that enlarge the table, a removal and a write *)
Example C85_pointer_ex : exists s0 s p s',
  vmade [TReserve 4; TAdd 1] = Ok s0 /\ vadd h_id doubling s0 7 = Ok (s, p) /\
  vops s [TAdd 8; TRemove 1 true; TAdd 9; TAdd 12] = Ok s' /\
  (forall pre post s1, map CTab [TAdd 8; TRemove 1 true; TAdd 9; TAdd 12] = pre ++ post ->
     run h_id Nat.eqb 0 doubling s pre s1 -> ht_size (vtab s1) <= vcap s) /\
  vderef s' p = Ok 7.
Proof.
  do 4 eexists. split; [vm_compute; reflexivity|]. split; [vm_compute; reflexivity|]. split; [vm_compute; reflexivity|].
  split; [|vm_compute; reflexivity]. intros pre post s1 E R.
  repeat (destruct pre as [|c pre]; [inversion R; subst; vm_compute; repeat constructor|];
          cbn [map app] in E; try discriminate; injection E as <- E; inversion R as [|? ? ? ? ? ? V R'|]; subst; clear R;
          vm_compute in V; injection V as <- <-; rename R' into R).
Qed.

(** Without reserve the next add may move the table, and the pointer dangles. *)
Theorem C85_pointer_refuted : exists s0 s p s',
  vmade [] = Ok s0 /\ vadd h_id doubling s0 7 = Ok (s, p) /\ vderef s p = Ok 7 /\
  vops s [TAdd 8] = Ok s' /\ vderef s' p = UB.
Proof. do 4 eexists. split; [vm_compute; reflexivity|]. split; [vm_compute; reflexivity|]. split; [vm_compute; reflexivity|]. split; vm_compute; reflexivity. Qed.
Print Assumptions C85_pointer_refuted.

(** and so does a reference in m[a] = m[b], whichever side is evaluated first: with b in the map
    and not a, or with a and not b. *)
Theorem C85_assign_refuted :
  exists s p, vindex h_id Nat.eqb 0 doubling (mk_vt (mk_ht None 0 [] [] 2 1) 0 0) 1 = Ok (s, p) /\
    assign h_id Nat.eqb 0 doubling false s 2 1 = UB /\ assign h_id Nat.eqb 0 doubling true s 1 2 = UB.
Proof. do 2 eexists. split; [vm_compute; reflexivity|]. split; vm_compute; reflexivity. Qed.
Print Assumptions C85_assign_refuted.

Example C85_assign_ex : exists s p q s' s'',
  vnew (D := nat * nat) 2 1 = Ok s /\
  vstep (phash h_id) (pequal Nat.eqb) (0, 0) doubling s (TReserve 3) = Ok (s', TUnit) /\
  vadd (phash h_id) doubling s' (1, 5) = Ok (s'', p) /\ S (S (ht_size (vtab s''))) <= vcap s'' /\
  (exists s3, assign h_id Nat.eqb 0 doubling true s'' 2 1 = Ok (s3, q) /\ vderef s3 q = Ok (2, 5)).
Proof.
  do 5 eexists. split; [vm_compute; reflexivity|]. split; [vm_compute; reflexivity|]. split; [vm_compute; reflexivity|].
  split; [vm_compute; repeat constructor|]. eexists. split; vm_compute; reflexivity.
Qed.
(** The vector with four elements is full: the fifth moves it *)
Example C85_add_own_ex : exists s0 s p s' q,
  vmade [TAdd 1; TAdd 2; TAdd 3] = Ok s0 /\ vadd h_id doubling s0 7 = Ok (s, p) /\ ht_size (vtab s) = vcap s /\
  vadd_ref h_id doubling s p = Ok (s', q) /\ vderef s' q = Ok 7 /\ vderef s' p = UB.
Proof. do 5 eexists. split; [vm_compute; reflexivity|]. split; [vm_compute; reflexivity|]. split; [vm_compute; reflexivity|]. split; [vm_compute; reflexivity|]. split; vm_compute; reflexivity. Qed.
