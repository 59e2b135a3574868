(** C109: the 64-bit stream functions. *)
From Coq Require Import List Arith ZArith Lia Bool ZifyBool ZifyNat.
From Verif Require Import Common CommonFacts Stdio_Model Stdio_Spec.
Import ListNotations.
Open Scope Z_scope.

(** The full property: fseek64 returns 0 exactly if the stream is now where it was to go and
    -1 otherwise, without the end-of-file indicator; ftell64 gives the position. False for
    the result of fseek64, see below. What holds: the position after a seek is the right one
    if there is such a position and unchanged otherwise, and ftell64 is exact; fseek64
    returns 0 exactly if the position reached, or -1 if there is none, equals the offset. *)
Theorem C109_partial : forall s off w, valid s ->
  let ok := seekable (on s) && (0 <=? goal s off w) in
  let '(r, s') := fseek64 s off w in
  (r = 0 \/ r = -1) /\ (r = 0 <-> (if ok then goal s off w else -1) = off) /\
  valid s' /\ eof s' = eof s /\ seekable (on s') = seekable (on s) /\
  (seekable (on s) = true -> position s' = (if ok then goal s off w else position s) /\ length_of s' = length_of s).
Proof.
  intros [a p e [sz o sk]] off w (V1 & V2 & V3 & V4). cbn [on ahead pending size offset] in *. unfold goal, length_of, position, valid, fseek64, fflush, lseek64. cbn [on ahead pending eof size offset seekable].
  destruct sk; cbn [on ahead pending eof size offset seekable andb].
  - destruct (Z.ltb_spec 0 p); (destruct w; cbn [Z.add]; match goal with |- context [0 <=? ?g] => destruct (Z.leb_spec 0 g) end; cbn [on ahead pending eof size offset seekable]; rewrite ?Z.add_0_l in *;
      repeat match goal with |- context [Z.eqb ?x ?y] => destruct (Z.eqb_spec x y) end; cbn [on ahead pending eof size offset seekable]; change (0 <? 0) with false; cbv iota; repeat match goal with |- context [0 <=? ?g] => destruct (Z.leb_spec 0 g) end; repeat split; intros; try lia).
  - repeat match goal with |- context [Z.eqb ?x ?y] => destruct (Z.eqb_spec x y) end; cbn [on ahead pending eof size offset seekable]; repeat split; try lia; try discriminate; auto.
Qed.
Print Assumptions C109_partial.
(** ftell64 gives the position and leaves it, or -1 if there is none. *)
Theorem C109_tell : forall s, valid s ->
  let '(r, s') := ftell64 s in
  r = (if seekable (on s) then position s else -1) /\ valid s' /\ eof s' = eof s /\ (seekable (on s) = true -> position s' = position s /\ length_of s' = length_of s).
Proof.
  intros [a p e [sz o sk]] (V1 & V2 & V3 & V4). cbn [on ahead pending size offset] in *. unfold length_of, position, valid, ftell64, fflush, lseek64. cbn [on ahead pending eof size offset seekable].
  destruct sk; cbn [on ahead pending eof size offset seekable andb].
  - rewrite Z.add_0_r. assert (Q : (0 <=? o - a + p) = true) by lia. rewrite Q. cbn [on ahead pending eof size offset seekable]. change (0 <? 0) with false. cbv iota. destruct (Z.ltb_spec 0 p); repeat split; intros; lia.
  - repeat split; try lia; try discriminate; auto.
Qed.
Print Assumptions C109_tell.
Example C109_ex : let s := mk_stream 10 0 true (mk_file 100 30 true) in
  valid s /\ position s = 20 /\ fseek64 s 5 SEEK_SET = (0, mk_stream 0 0 true (mk_file 100 5 true)) /\
  fseek64 s 5 SEEK_CUR = (-1, mk_stream 0 0 true (mk_file 100 25 true)) /\ fseek64 s (-1) SEEK_SET = (0, mk_stream 0 0 true (mk_file 100 20 true)) /\ fst (ftell64 s) = 20.
Proof. unfold valid. cbn. repeat split; try lia. Qed.

(** A seek relative to the position or to the end that succeeds returns -1, unless the
    position or the length is 0. *)
Theorem C109_relative_refuted : forall s off w, valid s -> seekable (on s) = true -> w <> SEEK_SET -> 0 <= goal s off w -> goal s off w <> off ->
  fst (fseek64 s off w) = -1 /\ position (snd (fseek64 s off w)) = goal s off w.
Proof.
  intros s off w V Sk Nw G N. pose proof (C109_partial s off w V) as H. destruct (fseek64 s off w) as [r s']. cbv zeta in H. rewrite Sk in H. replace (0 <=? goal s off w) with true in H by lia. cbn [andb fst snd] in *. destruct H as (A & B & _ & _ & _ & C). destruct (C eq_refl) as (C1 & _). split; [|exact C1]. destruct A as [A|A]; [apply B in A; congruence|exact A].
Qed.
Print Assumptions C109_relative_refuted.
Example C109_relative_refuted_ex : let s := mk_stream 0 0 false (mk_file 100 30 true) in valid s /\ 0 <= goal s (-10) SEEK_END /\ fseek64 s (-10) SEEK_END = (-1, mk_stream 0 0 false (mk_file 100 90 true)).
Proof. unfold valid. cbn. repeat split; lia. Qed.
(** A seek to -1 fails and returns 0; so does any seek of a pipe by -1. *)
Theorem C109_minus_one_refuted : forall s w, valid s -> (w = SEEK_SET \/ seekable (on s) = false) ->
  fst (fseek64 s (-1) w) = 0 /\ (seekable (on s) = true -> position (snd (fseek64 s (-1) w)) = position s).
Proof.
  intros s w V Q. pose proof (C109_partial s (-1) w V) as H. destruct (fseek64 s (-1) w) as [r s']. cbv zeta in H. assert (K : (seekable (on s) && (0 <=? goal s (-1) w))%bool = false) by (destruct Q as [-> | ->]; [cbn; now rewrite andb_false_r|reflexivity]). rewrite K in H. cbn [fst snd]. destruct H as (_ & B & _ & _ & _ & C). split; [now apply B|]. intros Sk. now destruct (C Sk).
Qed.
Print Assumptions C109_minus_one_refuted.

(** fopen64 accepts exactly the modes r, rb, w and wb, stops the program for every other one,
    and reads past the end of an empty one. *)
Theorem C109_modes : forall mode, Forall (fun c => c <> 0) mode ->
  check_mode mode = match mode with [] => UB | _ => match mode_of mode with Some m => Ok m | None => Abort end end.
Proof.
  intros mode F. destruct mode as [|m0 mode]; [reflexivity|]. inversion F as [|? ? F0 F1]; subst. unfold check_mode, get, invariant. cbn [app nth_error].
  destruct mode as [|m1 mode].
  - cbn [app nth_error bind Z.eqb orb mode_of]. destruct (Z.eqb_spec m0 114) as [->|N1]; [reflexivity|]. destruct (Z.eqb_spec m0 119) as [->|N2]; [reflexivity|]. destruct m0 as [|m|m]; try reflexivity. repeat (destruct m as [m|m|]; try reflexivity; try congruence).
  - inversion F1 as [|? ? F2 F3]; subst. cbn [app nth_error bind]. replace (m1 =? 0) with false by lia. destruct mode as [|m2 mode].
    + cbn [app nth_error bind Z.eqb orb]. destruct (Z.eqb_spec m1 98) as [->|Nb]; cbn [orb bind].
      * destruct (Z.eqb_spec m0 114) as [->|N1]; [reflexivity|]. destruct (Z.eqb_spec m0 119) as [->|N2]; [reflexivity|]. cbn [mode_of]. destruct m0 as [|m|m]; try reflexivity. repeat (destruct m as [m|m|]; try reflexivity; try congruence).
      * assert (X : mode_of [m0; m1] = None); [|now rewrite X]. cbn [mode_of]. destruct m0 as [|m|m]; try reflexivity. repeat (destruct m as [m|m|]; try reflexivity); destruct m1 as [|n|n]; try reflexivity; repeat (destruct n as [n|n|]; try reflexivity; try congruence).
    + inversion F3 as [|? ? F4 F5]; subst. cbn [app nth_error bind]. replace (m2 =? 0) with false by lia. cbn [bind].
      assert (X : mode_of (m0 :: m1 :: m2 :: mode) = None); [|now rewrite X]. cbn [mode_of]. destruct m0 as [|m|m]; try reflexivity. repeat (destruct m as [m|m|]; try reflexivity); destruct m1 as [|n|n]; try reflexivity; repeat (destruct n as [n|n|]; try reflexivity).
Qed.
Print Assumptions C109_modes.
Example C109_modes_ex : check_mode [114; 43] = Abort /\ check_mode [119; 98] = Ok Writing /\ check_mode [97] = Abort /\ check_mode [] = UB.
Proof. repeat split; reflexivity. Qed.

Lemma lowest_free l : nth (lowest l) l None = None.
Proof. induction l as [|[x|] l IH]; cbn; auto. Qed.
Definition cnt (l : list (option nat)) : nat := length (filter (fun o => match o with Some _ => true | None => false end) l).
Lemma cnt_place_free : forall l i v, nth i l None = None -> cnt (place l i (Some v)) = S (cnt l).
Proof.
  induction l as [|x l IH]; intros i v E.
  - clear E. assert (X : forall j, cnt (place [] j (Some v)) = 1%nat) by (induction j; cbn; auto). rewrite X. reflexivity.
  - destruct i as [|i]; cbn in E; [subst x; reflexivity|]. specialize (IH i v E). unfold cnt in *. cbn [place filter]. destruct x; cbn [length]; lia.
Qed.
Lemma cnt_place_used : forall l i v, nth i l None <> None -> cnt (place l i (Some v)) = cnt l.
Proof.
  induction l as [|x l IH]; intros i v E; [destruct i; cbn in E; congruence|]. destruct i as [|i]; cbn in E.
  - destruct x; [reflexivity|congruence].
  - specialize (IH i v E). unfold cnt in *. cbn [place filter]. destruct x; cbn [length]; lia.
Qed.
Lemma nth_place : forall l i j v, nth j (place l i v) None = if (i =? j)%nat then v else nth j l None.
Proof.
  induction l as [|x l IH]; intros i j v.
  - revert j. induction i as [|i IHi]; intros [|j]; cbn; auto; [now destruct j|]. rewrite IHi. destruct (i =? j)%nat; [reflexivity|now destruct j].
  - destruct i as [|i], j as [|j]; cbn; auto.
Qed.
(** fopen64 with a good mode: a descriptor that was free, and the others as they were; else
    NULL and nothing changed. *)
Theorem C109_open : forall p ok mode m, Forall (fun c => c <> 0) mode -> mode_of mode = Some m ->
  (exists i p', fopen64 p ok mode = Ok (Some i, p') /\ nth i (fds p) None = None /\ (i < limit p)%nat /\ in_use p' = S (in_use p) /\ nth i (fds p') None = Some (opened p) /\ forall j, j <> i -> nth j (fds p') None = nth j (fds p) None)
  \/ (fopen64 p ok mode = Ok (None, p) /\ (ok = false \/ (limit p <= lowest (fds p))%nat)).
Proof.
  intros p ok mode m F M. unfold fopen64. rewrite (C109_modes mode F), M. destruct mode as [|c mode]; [discriminate|]. cbn [bind]. unfold open_fd. destruct ok; cbn [andb]; [|right; split; [reflexivity|now left]]. destruct (Nat.ltb_spec (lowest (fds p)) (limit p)); [left|right; split; [reflexivity|now right]].
  eexists _, _. split; [reflexivity|]. cbn [fds]. split; [apply lowest_free|]. split; [assumption|]. split; [apply cnt_place_free, lowest_free|]. split; [now rewrite nth_place, Nat.eqb_refl|]. intros j N. rewrite nth_place. destruct (Nat.eqb_spec (lowest (fds p)) j); [congruence|reflexivity].
Qed.
Print Assumptions C109_open.
Example C109_open_ex : fopen64 (mk_process [Some 0%nat; None; Some 1%nat] 2 8) true [114] = Ok (Some 1%nat, mk_process [Some 0%nat; Some 2%nat; Some 1%nat] 3 8).
Proof. reflexivity. Qed.

(** freopen64 puts the stream on the new file, or fails and leaves all as it was; but with
    every success one more descriptor is in use. *)
Theorem C109_reopen_refuted : forall p ok mode m fd, Forall (fun c => c <> 0) mode -> mode_of mode = Some m -> nth fd (fds p) None <> None ->
  (exists p', freopen64 p ok mode fd = Ok (Some fd, p') /\ nth fd (fds p') None = Some (opened p) /\ in_use p' = S (in_use p) /\ limit p' = limit p)
  \/ (freopen64 p ok mode fd = Ok (None, p) /\ (ok = false \/ (limit p <= lowest (fds p))%nat)).
Proof.
  intros p ok mode m fd F M U. unfold freopen64. destruct (C109_open p ok mode m F M) as [(i & p' & E & A & B & C & D & G)|(E & Q)]; rewrite E; cbn [bind]; [left|right; now split]. rewrite D.
  assert (N : fd <> i) by congruence. eexists. split; [reflexivity|]. cbn [fds opened limit]. rewrite nth_place, Nat.eqb_refl. split; [reflexivity|]. split.
  - unfold in_use at 1. cbn [fds]. fold (cnt (place (fds p') fd (Some (opened p)))). rewrite cnt_place_used; [exact C|]. now rewrite G.
  - unfold fopen64 in E. rewrite (C109_modes mode F), M in E. destruct mode; [discriminate|]. cbn [bind] in E. unfold open_fd in E. destruct (ok && _)%bool; [|discriminate]. now injection E as <- <-.
Qed.
Print Assumptions C109_reopen_refuted.
Example C109_reopen_refuted_ex : freopen64 (mk_process [Some 0%nat] 1 2) true [119] 0 = Ok (Some 0%nat, mk_process [Some 1%nat; Some 1%nat] 2 2) /\
  freopen64 (mk_process [Some 1%nat; Some 1%nat] 2 2) true [119] 0 = Ok (None, mk_process [Some 1%nat; Some 1%nat] 2 2).
Proof. split; reflexivity. Qed.
