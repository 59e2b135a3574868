(** Properties C27 and C28 of ConstantString. *)
From Coq Require Import List Arith NArith ZArith Bool Lia.
From Verif Require Import Common CommonFacts HashTable_Model HashTable_Proofs ConstantString_Spec ConstantString_Model ConstantString_Proofs.
Import ListNotations.
Local Open Scope Z_scope.

(** Strings below 2 GiB, and fewer of them than the hash table can hold. *)
Definition reasonable (ss : list (list Z)) : Prop :=
  Forall (fun s => Z.of_nat (length s) < 2 ^ 31 - 16) ss /\ (N.of_nat (length ss) <= 2 * 141650939)%N.

(** C27: after any history of creations that did not abort, every string created
    on the way still reads as what it was created from, and two of them are the
    same object exactly when they were created from equal bytes. The quantifier
    over histories makes this hold at every moment. *)
Theorem C27_interning : forall buffer_size hashBytes ss m0 m, reasonable ss -> cs_start = Ok m0 ->
  exec_ops (create buffer_size hashBytes) m0 ss = Ok m ->
  exists ps, run_ops (create buffer_size hashBytes) m0 ss = map Ok ps
    /\ Forall2 (fun s p => cs_str m p = Ok s) ss ps
    /\ forall i j s s' p q, nth_error ss i = Some s -> nth_error ps i = Some p -> nth_error ss j = Some s' -> nth_error ps j = Some q ->
         ptr_eqb p q = true <-> s = s'.
Proof.
  intros bs h ss m0 m [Sh Len] E0 Ex. destruct (start_inv bs h) as (m1 & E1 & I). rewrite E0 in E1. injection E1 as <-.
  pose proof (history_ok bs h ss m0 [] I Sh Len) as H. rewrite Ex in H. destruct H as (K & ps & I' & _ & R & F).
  exists ps. split; [exact R|]. split.
  - eapply Forall2_impl_in; [|exact F]. intros s p _ _ Ip. destruct I' as (_ & _ & _ & _ & St & _). now apply stored_str, St.
  - intros i j s s' p q Hi Pi Hj Pj. destruct (Forall2_nth_l _ _ _ i s F Hi) as (p' & Pi' & Ip). destruct (Forall2_nth_l _ _ _ j s' F Hj) as (q' & Pj' & Iq).
    assert (p' = p) as -> by congruence. assert (q' = q) as -> by congruence. rewrite <- (known_same bs h m K p q s s' I' Ip Iq).
    destruct p as [|b o], q as [|b' o']; cbn; split; intros Q; try discriminate; try reflexivity.
    + apply andb_true_iff in Q as [Q1 Q2]. apply Nat.eqb_eq in Q1, Q2. congruence.
    + injection Q as -> ->. now rewrite !Nat.eqb_refl.
Qed.

(** No reasonable history does anything undefined; it aborts only on a string
    longer than 1/64 of a buffer. *)
Theorem C27_no_undefined_behaviour : forall buffer_size hashBytes ss m0, reasonable ss -> cs_start = Ok m0 ->
  (exists m, exec_ops (create buffer_size hashBytes) m0 ss = Ok m)
  \/ (exec_ops (create buffer_size hashBytes) m0 ss = Abort /\ exists s, In s ss /\ (buffer_size / 64 <= length s + 8)%nat).
Proof.
  intros bs h ss m0 [Sh Len] E0. destruct (start_inv bs h) as (m1 & E1 & I). rewrite E0 in E1. injection E1 as <-.
  pose proof (history_ok bs h ss m0 [] I Sh Len) as H. destruct (exec_ops (create bs h) m0 ss) as [m| | |]; try contradiction; [left; eauto|right; auto].
Qed.
(** A string of 2 GiB makes the size computation negative, and the string is
    written past the end of the buffer. *)
Theorem C27_huge_string_refuted : forall buffer_size hashBytes s m0, (4 <= buffer_size)%nat -> Z.of_nat buffer_size < 2 ^ 31 ->
  Z.of_nat (length s) = 2 ^ 31 -> cs_start = Ok m0 -> create buffer_size hashBytes m0 s = UB.
Proof.
  intros bs h s m0 B1 B2 Ls E0. injection E0 as <-. unfold create. rewrite u32_small by lia. cbn [init]. replace (Z.of_nat (length s) =? 0) with false by lia.
  cbn [init_buffer buffers table empty_string_myptr].
  destruct (set_key_ok h [] s ltac:(lia)) as (ib & Ek & Hib). rewrite Ek. cbn [bind].
  assert (Em : table_readable {| buffers := []; table := mk_ht None 0 [] [] 2 1; empty_string_myptr := None; init_buffer := ib |} = true) by reflexivity.
  rewrite Em. clear Em. unfold readable at 1. rewrite Hib. cbn [andb negb].
  change (ht_lookup (hteHash h {| buffers := []; table := mk_ht None 0 [] [] 2 1; empty_string_myptr := None; init_buffer := ib |}) (hteEqual {| buffers := []; table := mk_ht None 0 [] [] 2 1; empty_string_myptr := None; init_buffer := ib |}) (mk_ht None 0 [] [] 2 1) Tmp) with (@Ok (option nat) None).
  cbn [bind find_room app].
  assert (Sp : space_used (Z.of_nat (length s)) = -2147483640) by (rewrite Ls; reflexivity). rewrite Sp.
  replace (-2147483640 <? Z.of_nat (bs / 64)) with true by (symmetry; apply Z.ltb_lt; lia). cbn [invariant bind].
  destruct (set_key_ok h ib s ltac:(lia)) as (ib2 & Ek2 & Hib2). rewrite Ek2. cbn [bind]. cbv zeta.
  set (m2 := {| buffers := [_]; table := _; empty_string_myptr := _; init_buffer := ib2 |}).
  change (table_readable m2) with true. assert (RD : readable m2 Tmp = true) by (unfold readable, m2; now rewrite Hib2). rewrite RD. cbn [andb negb].
  change (ht_lookup (hteHash h m2) (hteEqual m2) (mk_ht None 0 [] [] 2 1) Tmp) with (@Ok (option nat) None). cbn [bind amt_used].
  replace (-2147483640 <=? Z.of_nat bs - 0) with true by lia. unfold place. cbn [buffers get nth_error m2 bind bdata amt_used].
  destruct (write_ok (repeat None bs) (Z.to_nat 0) (word_bytes (Z.of_nat (length s)))) as (d & W); [rewrite repeat_length; cbn; lia|]. rewrite W. cbn [bind].
  rewrite Nat2Z.id, firstn_all. unfold write_at at 1. rewrite (write_length _ _ _ _ W), repeat_length.
  replace (Z.to_nat 0 + 4 + length s <=? bs)%nat with false; [reflexivity|]. symmetry. apply Nat.leb_gt. lia.
Qed.

(** C28, for strings without NUL bytes: compare is negative, zero or positive as
    the first string is before, equal to or after the second in dictionary order. *)
Theorem C28_compare_partial : forall buffer_size hashBytes ss m0 m, reasonable ss -> cs_start = Ok m0 -> Forall no_nul ss ->
  exec_ops (create buffer_size hashBytes) m0 ss = Ok m ->
  exists ps, run_ops (create buffer_size hashBytes) m0 ss = map Ok ps /\
    forall i j s s' p q, nth_error ss i = Some s -> nth_error ps i = Some p -> nth_error ss j = Some s' -> nth_error ps j = Some q ->
      exists c, compare m p q = Ok c /\ (c < 0 <-> bytes_lt s s') /\ (c = 0 <-> s = s') /\ (c > 0 <-> bytes_lt s' s).
Proof.
  intros bs h ss m0 m [Sh Len] E0 NN Ex. destruct (start_inv bs h) as (m1 & E1 & I). rewrite E0 in E1. injection E1 as <-.
  pose proof (history_ok bs h ss m0 [] I Sh Len) as H. rewrite Ex in H. destruct H as (K & ps & I' & _ & R & F).
  exists ps. split; [exact R|]. intros i j s s' p q Hi Pi Hj Pj.
  destruct (Forall2_nth_l _ _ _ i s F Hi) as (p' & Pi' & Ip). destruct (Forall2_nth_l _ _ _ j s' F Hj) as (q' & Pj' & Iq).
  assert (p' = p) as -> by congruence. assert (q' = q) as -> by congruence. eexists. split; [eapply compare_ok; eauto|].
  rewrite Forall_forall in NN. apply (memcmp_lt h); apply NN; eapply nth_error_In; eauto.
Qed.
(** Dictionary order is a strict total order, so compare is one. *)
Theorem C28_dictionary_order : (forall a, ~ bytes_lt a a) /\ (forall a b c, bytes_lt a b -> bytes_lt b c -> bytes_lt a c)
  /\ (forall a b, bytes_lt a b \/ a = b \/ bytes_lt b a).
Proof.
  split; [|split].
  - induction a as [|x a IH]; intros H; inversion H; subst; [lia|auto].
  - intros a b c H. revert c. induction H as [y ys|x y xs ys H|x xs ys H IH]; intros c H2; inversion H2; subst; try (apply lt_prefix); try (apply lt_here; lia); apply lt_later; auto.
  - induction a as [|x a IH]; intros [|y b]; auto; [left; constructor|right; right; constructor|].
    destruct (Z.lt_total x y) as [H|[->|H]]; [left; now constructor| |right; right; now constructor].
    destruct (IH b) as [H|[->|H]]; [left; now apply lt_later|auto|right; right; now apply lt_later].
Qed.
(** With NUL bytes inside, different strings compare as equal, and this "equal"
    is not even transitive: a = "a", b = "a\\0b", c = "a\\0c". *)
Theorem C28_embedded_nul_refuted :
  exists ss m0 m p q r, cs_start = Ok m0 /\ exec_ops (create 1024 (fun _ => 0%N)) m0 ss = Ok m
    /\ run_ops (create 1024 (fun _ => 0%N)) m0 ss = [Ok p; Ok q; Ok r]
    /\ compare m p q = Ok 0 /\ ptr_eqb p q = false /\ compare m p r = Ok 0 /\ compare m q r = Ok (-1).
Proof.
  exists [[97]; [97; 0; 98]; [97; 0; 99]]. eexists. eexists. exists (At 0 4), (At 0 12), (At 0 20).
  split; [reflexivity|]. split; [vm_compute; reflexivity|]. repeat split; vm_compute; reflexivity.
Qed.

(** The hypotheses are met: a history that repeats strings and moves on to a
    second buffer. *)
Definition ex_history : list (list Z) := [[104; 105]; []; [104; 105; 33]; [104; 105]; []; [120]; [104; 105; 33]].
Example C27_nonvacuous : reasonable ex_history /\ Forall no_nul ex_history /\
  match cs_start with
  | Ok m0 => run_ops (create 1040 (fun s => N.of_nat (length s))) m0 ex_history
  | _ => []
  end = map Ok [At 0 4; At 0 12; At 0 20; At 0 4; At 0 12; At 0 28; At 0 20].
Proof.
  split; [split; [repeat (apply Forall_cons; [vm_compute; reflexivity|]); apply Forall_nil|vm_compute; discriminate]|].
  split; [repeat (apply Forall_cons; [repeat (apply Forall_cons; [lia|]); apply Forall_nil|]); apply Forall_nil|]. vm_compute. reflexivity.
Qed.
Example C27_two_buffers :
  match cs_start with
  | Ok m0 => skipn 57 (run_ops (create 1024 (fun s => N.of_nat (length s))) m0 (map (fun i => repeat 7 (i mod 8) ++ [Z.of_nat i]) (seq 0 90)))
  | _ => []
  end <> [].
Proof. vm_compute. discriminate. Qed.
Print Assumptions C27_interning.
Print Assumptions C27_no_undefined_behaviour.
Print Assumptions C27_huge_string_refuted.
Print Assumptions C28_compare_partial.
Print Assumptions C28_dictionary_order.
Print Assumptions C28_embedded_nul_refuted.
