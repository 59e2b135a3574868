(** C82: the statistics objects of HashTupleStats and StatsCube. *)
From Coq Require Import List Arith NArith ZArith Lia Bool Permutation Sorting.Sorted.
From Verif Require Import Common CommonFacts HashTable_Model HashMap_Spec HashMap_Model HashMap_Proofs Tuples_Spec Tuples_Model Tuples_Props Owned_Spec Owned_Model Owned_Proofs.
Import ListNotations.

(** What is assumed of keys: equality is an equivalence that the hash respects, and <
    is transitive and compares keys that are not equal. *)
Definition good_keys {K : Type} (khash : K -> N) (keq klt : K -> K -> bool) : Prop :=
  (forall a, keq a a = true) /\ (forall a b, keq a b = true -> keq b a = true)
  /\ (forall a b c, keq a b = true -> keq b c = true -> keq a c = true)
  /\ (forall a b, keq a b = true -> khash a = khash b)
  /\ (forall a b c, klt a b = true -> klt b c = true -> klt a c = true)
  /\ (forall a b, keq a b = false -> klt a b = true \/ klt b a = true).

Section props.
Context {K S : Type}.
Variables (khash : K -> N) (keq klt : K -> K -> bool) (kdef : K) (fresh : S) (checked : bool).
Notation run := (orun khash keq kdef klt fresh checked).
Notation step := (ostep khash keq kdef klt fresh checked).

Lemma room_of n : (N.of_nat n < 283301878)%N -> HashMap_Proofs.room 2 1 n.
Proof. unfold HashMap_Proofs.room, largest. lia. Qed.

(** Every history, with every behaviour of the callbacks, goes as specified: the right
    objects with the right contents, one per key, in sorted order where asked; asserts
    and undefined behaviour only where the specification has them; and the destructor
    deletes every object that still exists, once, but the leaked ones. *)
Theorem C82_history_partial : good_keys khash keq klt -> forall ops, (N.of_nat (length ops) < 283301878)%N ->
  exists st outs e e', onew = Ok st /\ run st ops = (outs, e) /\ thist keq klt fresh checked (mk_ts [] 0 []) ops outs e' /\
  match e, e' with
  | Some st', Some s => hlive (mem st') = length (existing s) /\ exists h, destroy st' = Ok h /\ hlive h = length (leaked s)
  | None, None => True
  | _, _ => False
  end.
Proof.
  intros (H1 & H2 & H3 & H4 & H5 & H6) ops L. destruct (@new_rel K S khash keq) as (st & E & HR).
  destruct (run_rel khash keq kdef klt fresh checked H1 H2 H3 H4 H5 H6 ops st _ 0 HR (room_of _ L)) as (outs & e & e' & Er & Ht & M).
  exists st, outs, e, e'. split; [exact E|]. split; [exact Er|]. split; [exact Ht|]. destruct e as [st'|], e' as [s|]; auto.
  assert (M' := M). destruct M' as (_ & _ & HH). split; [exact (heap_live _ _ HH)|].
  destruct (destroy_rel khash keq st' s _ M) as (h & Eh & Hh). exists h. split; [exact Eh|exact (heap_live _ _ Hh)].
Qed.

(** With factories that work and zero walks that are not interrupted: nothing aborts,
    nothing is undefined, nothing leaks. *)
Theorem C82_no_leak : good_keys khash keq klt -> forall ops, (N.of_nat (length ops) < 283301878)%N -> Forall well ops -> Forall no_deref ops ->
  exists st outs st' h, onew = Ok st /\ run st ops = (outs, Some st') /\ length outs = length ops /\ Forall (fun o => exists x, o = Ok x) outs
    /\ destroy st' = Ok h /\ hlive h = 0.
Proof.
  intros G ops L W D. destruct (C82_history_partial G ops L) as (st & outs & e & e' & E & Er & Ht & M).
  destruct (hist_well keq klt fresh checked _ _ _ _ Ht) as (F & Le & s' & -> & L'); [intros k []|reflexivity|exact W|exact D|].
  destruct e as [st'|]; [|destruct M]. destruct M as (_ & h & Eh & Hh). exists st, outs, st', h. rewrite L' in Hh. auto 10.
Qed.

(** A reference to a statistic stays good, and stays the key's, until the entry is
    pruned or cleared: growing the table does not move it. *)
Theorem C82_reference : good_keys khash keq klt -> forall ops1 ops2 st outs1 st1 k g m st2 a x outs2 st3,
  (N.of_nat (length ops1 + length ops2) < 283301870)%N -> Forall keeps ops2 ->
  onew = Ok st -> run st ops1 = (outs1, Some st1) -> step st1 (TTouch k g m) = Ok (st2, OStat a x) -> run st2 ops2 = (outs2, Some st3) ->
  exists s, step st3 (TDeref a) = Ok (st3, OStat a s) /\ forall m', exists st4, step st3 (TTouch k (fun s => s) m') = Ok (st4, OStat a s).
Proof.
  intros (H1 & H2 & H3 & H4 & H5 & H6) ops1 ops2 st outs1 st1 k g m st2 a x outs2 st3 L Kp E E1 E2 E3.
  destruct (@new_rel K S khash keq) as (st0 & E0 & HR). rewrite E in E0. injection E0 as <-.
  destruct (run_rel khash keq kdef klt fresh checked H1 H2 H3 H4 H5 H6 ops1 st _ 0 HR (room_of (0 + length ops1) ltac:(cbn [Nat.add]; lia))) as (outs & e & e' & Er & Ht & M).
  rewrite E1 in Er. injection Er as <- <-. destruct e' as [s1|]; [|destruct M]. cbn [Nat.add] in M.
  pose proof (step_rel khash keq kdef klt fresh checked H1 H2 H3 H4 H5 H6 st1 s1 _ (TTouch k g m) M (room_of (length ops1) ltac:(lia))) as X. rewrite E2 in X. destruct X as (s2 & T & R2).
  pose proof (touch_has keq klt fresh checked H1 _ _ _ _ _ _ _ T) as Hs.
  destruct (run_has khash keq kdef klt fresh checked H1 H2 H3 H4 H5 H6 ops2 st2 s2 (Datatypes.S (length ops1)) k a outs2 st3 R2 (room_of (Datatypes.S (length ops1) + length ops2) ltac:(lia)) Kp Hs E3) as (s3 & R3 & k0 & s & Ek & I).
  exists s. assert (R3' := R3). destruct R3' as (_ & _ & HH). 
  assert (G : hget (mem st3) a = Ok s). { eapply heap_get; [exact HH|]. unfold existing. apply in_or_app. left. unfold objs. apply in_flat_map. exists (k0, Some (a, s)). split; [exact I|now left]. }
  split; [cbn [ostep]; rewrite G; reflexivity|]. intros m'.
  pose proof (step_rel khash keq kdef klt fresh checked H1 H2 H3 H4 H5 H6 st3 s3 _ (TTouch k (fun s => s) m') R3 (room_of (Datatypes.S (length ops1) + length ops2) ltac:(lia))) as X.
  assert (F : mfind keq k (entries s3) = Some (Some (a, s))) by (exact (mfind_some keq (entries s3) k (k0, Some (a, s)) (R_uniq _ _ _ _ _ R3) I Ek)).
  destruct (step st3 (TTouch k (fun s0 => s0) m')) as [(st4 & out)| | |] eqn:E4; [|exfalso|exfalso|destruct X].
  - destruct X as (s4 & T4 & _). exists st4. f_equal. f_equal. destruct s3 as [m3 n3 l3]. cbn [entries] in F. inversion T4; subst; cbv beta; try (match goal with H : _ = Ok _ |- _ => destruct checked; discriminate H end); match goal with H : mfind keq k m3 = _ |- _ => assert (Y := eq_trans (eq_sym F) H) end; first [discriminate Y|injection Y as <- <-; reflexivity].
  - destruct s3 as [m3 n3 l3]. cbn [entries] in F. inversion X; subst. match goal with H : _ \/ _ |- _ => destruct H as [H|H]; assert (Y := eq_trans (eq_sym F) H) end; discriminate.
  - destruct s3 as [m3 n3 l3]. cbn [entries] in F. inversion X; subst. match goal with H : _ \/ _ |- _ => destruct H as [H|H]; assert (Y := eq_trans (eq_sym F) H) end; discriminate.
Qed.

(** prune with a predicate that looks at the key only: exactly the entries it rejects
    stay, and it is asked about each of them. *)
Theorem C82_prune_pure : forall (q : K -> bool) (m : list (entry K S)) log th m',
  (forall a b, keq a b = true -> q a = q b) ->
  pruned keq (fun _ k => Some (q k)) m log th m' -> th = false /\ Permutation m' (filter (fun e => negb (q (fst e))) m).
Proof. intros q m log th m'. apply pruned_pure. Qed.

(** Copying is not safe: destroying an object that holds a statistic and its copy
    deletes a statistic twice. *)
Theorem C82_copy_refuted : good_keys khash keq klt -> forall ops st outs st',
  (N.of_nat (length ops) < 283301878)%N -> onew = Ok st -> run st ops = (outs, Some st') ->
  hlive (mem st') <> 0 -> Forall well ops -> Forall no_deref ops -> destroyCopyToo st' = UB.
Proof.
  intros (H1 & H2 & H3 & H4 & H5 & H6) ops st outs st' L E Er Hl W D. destruct (@new_rel K S khash keq) as (st0 & E0 & HR). rewrite E in E0. injection E0 as <-.
  destruct (run_rel khash keq kdef klt fresh checked H1 H2 H3 H4 H5 H6 ops st _ 0 HR (room_of _ L)) as (outs' & e & e' & Er' & Ht' & M).
  rewrite Er in Er'. injection Er' as <- <-. destruct e' as [s1|]; [|destruct M].
  destruct (hist_well keq klt fresh checked _ _ _ _ Ht') as (_ & _ & s' & X & L'); [intros k []|reflexivity|exact W|exact D|]. injection X as <-.
  eapply (copy_rel khash keq st' s1); [exact M|]. intros X. apply Hl. destruct M as (_ & _ & HH). rewrite (heap_live _ _ HH). unfold existing. now rewrite X, L'.
Qed.
End props.
Print Assumptions C82_history_partial.
Print Assumptions C82_no_leak.
Print Assumptions C82_reference.
Print Assumptions C82_prune_pure.
Print Assumptions C82_copy_refuted.

(** Keys for the examples: numbers with a hash that collides often *)
Definition ehash (n : nat) : N := N.of_nat (n mod 4).
Example C82_keys : good_keys ehash Nat.eqb Nat.ltb.
Proof.
  split; [exact Nat.eqb_refl|]. split; [intros a b H; now rewrite Nat.eqb_sym|]. split; [intros a b c H1 H2; apply Nat.eqb_eq in H1, H2; subst; apply Nat.eqb_refl|].
  split; [intros a b H; apply Nat.eqb_eq in H; now subst|]. split; [intros a b c H1 H2; apply Nat.ltb_lt in H1, H2; apply Nat.ltb_lt; lia|].
  intros a b H. apply Nat.eqb_neq in H. rewrite !Nat.ltb_lt. lia.
Qed.
(** and the tuples with any values that are the keys of a cube *)
Definition ckey (n : nat) : Type := { t : bitset_any_tuple Z | arity n t }.
Theorem C82_cube_keys : forall n (hash : Z -> Z), good_keys (K := ckey n) (fun t => Z.to_N (bat_hash hash (proj1_sig t))) (fun t u => bat_equal Z.eqb (proj1_sig t) (proj1_sig u)) (fun t u => bat_less Z.ltb (proj1_sig t) (proj1_sig u)).
Proof.
  intros n hash. pose proof C31_order_exists as O. split; [|split; [|split; [|split; [|split]]]].
  - intros (t & Ht). cbn [proj1_sig]. now apply (C31_equal _ _ O n).
  - intros (t & Ht) (u & Hu). cbn [proj1_sig]. rewrite !(C31_equal _ _ O n) by assumption. auto.
  - intros (t & Ht) (u & Hu) (v & Hv). cbn [proj1_sig]. rewrite !(C31_equal _ _ O n) by assumption. congruence.
  - intros (t & Ht) (u & Hu) E. cbn [proj1_sig] in *. f_equal. now apply (C31_hash _ _ _ O n).
  - intros (t & Ht) (u & Hu) (v & Hv). cbn [proj1_sig]. now apply (C31_strict_total_order _ _ O n).
  - intros (t & Ht) (u & Hu) E. cbn [proj1_sig] in *. destruct (proj2 (proj2 (C31_strict_total_order _ _ O n)) t u Ht Hu) as [(A & B & C)|[(A & B & C)|(A & B & C)]]; [now left|congruence|now right].
Qed.
Print Assumptions C82_cube_keys.

(** A run with growth, a callback that changes what it sees, a prune with a stateful
    predicate (it accepts every second question), a kept reference and a zero walk *)
Definition eadd (x : nat) (l : list nat) : list nat := l ++ [x].
Definition estart (checked : bool) (ops : list (top nat (list nat))) :=
  match onew with Ok st => orun ehash Nat.eqb 0 Nat.ltb [] checked st ops | _ => ([], None) end.
Definition eops : list (top nat (list nat)) :=
  [TTouch 7 (eadd 70) Made; TTouch 3 (eadd 30) Made; TTouch 11 (eadd 110) Made; TTouch 3 (eadd 31) Made; TTouch 2 (eadd 20) Made; TTouch 15 (eadd 1) Made;
   TSize; TLive; TWalkOrdered (fun k l => (l ++ [k], false));
   TWalkZeros [2; 5; 3] (eadd 0) Made (fun k l => (l ++ [99], false));
   TPrune (fun log _ => Some (Nat.even (length log))); TSize; TLive; TWalkOrdered (fun k l => (l, false))].
Example C82_run : fst (estart true eops) =
  [Ok (OStat 0 [70]); Ok (OStat 1 [30]); Ok (OStat 2 [110]); Ok (OStat 1 [30; 31]); Ok (OStat 3 [20]); Ok (OStat 4 [1]);
   Ok (ONum 5); Ok (ONum 5);
   Ok (ORows [(2, (3, [20])); (3, (1, [30; 31])); (7, (0, [70])); (11, (2, [110])); (15, (4, [1]))] false);
   Ok (ORows [(2, (3, [20; 2])); (5, (5, [0])); (3, (1, [30; 31; 3]))] false);
   Ok (OCalls [(2, true); (15, false); (11, true); (15, false); (3, true); (15, false); (7, true); (15, false)] false);
   Ok (ONum 1); Ok (ONum 1); Ok (ORows [(15, (4, [1; 15]))] false)].
Proof. vm_compute. reflexivity. Qed.
Example C82_run_well : Forall well eops /\ Forall no_deref eops /\ exists st, snd (estart true eops) = Some st /\ hlive (mem st) = 1.
Proof. split; [repeat constructor|]. split; [repeat constructor|]. eexists. split; vm_compute; reflexivity. Qed.
Example C82_reference_met : exists st st1 st2 st3 outs1 outs2, onew = Ok st
  /\ orun ehash Nat.eqb 0 Nat.ltb [] true st [TTouch 1 (eadd 1) Made] = (outs1, Some st1)
  /\ ostep ehash Nat.eqb 0 Nat.ltb [] true st1 (TTouch 7 (eadd 70) Made) = Ok (st2, OStat 1 [70])
  /\ orun ehash Nat.eqb 0 Nat.ltb [] true st2 (map (fun i => TTouch i (eadd i) Made) (seq 2 20)) = (outs2, Some st3)
  /\ ostep ehash Nat.eqb 0 Nat.ltb [] true st3 (TDeref 1) = Ok (st3, OStat 1 [70; 7]).
Proof. do 6 eexists. split; [reflexivity|]. split; [vm_compute; reflexivity|]. split; [vm_compute; reflexivity|]. split; vm_compute; reflexivity. Qed.
Example C82_prune_pure_met : exists log m', pruned (S := nat) Nat.eqb (fun _ k => Some (Nat.even k)) [(1, Some (0, 5)); (2, Some (1, 6))] log false m' /\ m' = [(1, Some (0, 5))].
Proof.
  exists [(1, false); (2, true)], [(1, Some (0, 5))]. split; [|reflexivity]. split; [|split; [|split]].
  - intros [|? [|? [|? ?]]] k b l2 E; inversion E; reflexivity.
  - intros [|? [|? [|? ?]]] k b l2 E; inversion E; subst; cbn; auto.
  - reflexivity.
  - intros k [<-|[]]. now left.
Qed.

(** A factory that throws leaves an entry without a statistic, and the next walk
    follows a null pointer. *)
Theorem C82_factory_throw_refuted :
  fst (estart true [TTouch 7 (eadd 70) Made; TTouch 3 (eadd 30) Threw; TSize; TLive; TWalk (fun _ l => (l, false))]) = [Ok (OStat 0 [70]); Ok OThrown; Ok (ONum 2); Ok (ONum 1); UB].
Proof. vm_compute. reflexivity. Qed.
Print Assumptions C82_factory_throw_refuted.
(** A walk function that throws in a zero walk leaves the empty statistic behind. *)
Theorem C82_zero_walk_leak_refuted : exists st h,
  estart true [TTouch 7 (eadd 70) Made; TWalkZeros [7; 8] (fun l => l) Made (fun k l => (l, k =? 8))] = ([Ok (OStat 0 [70]); Ok (ORows [(7, (0, [70])); (8, (1, []))] true)], Some st)
  /\ destroy st = Ok h /\ hlive h = 1.
Proof. do 2 eexists. split; [vm_compute; reflexivity|]. split; vm_compute; reflexivity. Qed.
Print Assumptions C82_zero_walk_leak_refuted.
(** A factory that returns null is reported by HashTupleStats but not by StatsCube. *)
Theorem C82_null_factory_refuted : forall k g ops, fst (estart true (TTouch k g Null :: ops)) = [Abort] /\ fst (estart false (TTouch k g Null :: ops)) = [UB].
Proof.
  assert (X : forall c k g ops, fst (estart c (TTouch k g Null :: ops)) = [if c then Abort else UB]).
  { intros c k g ops. destruct (C82_history_partial ehash Nat.eqb Nat.ltb 0 [] c C82_keys [TTouch k g Null] ltac:(cbn; lia)) as (st & outs & e & e' & E & Er & Ht & _).
    unfold estart. rewrite E. cbn [orun] in *. destruct (ostep ehash Nat.eqb 0 Nat.ltb [] c st (TTouch k g Null)) as [(st' & out)| | |]; injection Er as <- <-.
    - inversion Ht as [|? ? ? ? ? ? ? T _| |]; subst. inversion T; subst; try (destruct c; discriminate); cbn in *; discriminate.
    - inversion Ht as [| |? ? ? T|]; subst. inversion T; subst. destruct c; [reflexivity|discriminate].
    - inversion Ht as [| | |? ? ? T]; subst. inversion T; subst. destruct c; [discriminate|reflexivity].
    - inversion Ht. }
  intros k g ops. split; [apply (X true)|apply (X false)].
Qed.
Print Assumptions C82_null_factory_refuted.
