(** C45 (doubles). *)
From Coq Require Import List ZArith Reals Lra Lia.
From Flocq Require Import Core BinarySingleNaN.
From Verif Require Import Common Double64 Clock_Proofs Random_Spec Random_Model RandomDouble_Model RandomDouble_Proofs.
Import ListNotations.
Local Open Scope Z_scope.

(** randDoubleOpen is the next word over 2^32, in [0,1). *)
Theorem C45_double_open : forall (G : Type) (next : G -> res (Z * G)) g r g', 0 <= r < 2 ^ 32 -> next g = Ok (r, g') ->
  exists x, randDoubleOpen next g = Ok (x, g') /\ is_finite x = true /\ B2R x = (IZR r / IZR (2 ^ 32))%R /\ (0 <= B2R x < 1)%R.
Proof.
  intros G next g r g' H E. unfold randDoubleOpen. rewrite E. cbn [bind]. eexists. split; [reflexivity|]. destruct (open_spec r H) as (V & F). split; [exact F|]. split; [exact V|]. rewrite V.
  split; [apply quot_nonneg; lia|apply (quot_lt r (2 ^ 32) 1); lia].
Qed.
Print Assumptions C45_double_open.
(** randDoubleClosed is in [0,1], grows with the word, and is 1 exactly for the largest. *)
Theorem C45_double_closed : forall (G : Type) (next : G -> res (Z * G)) g r g', 0 <= r < 2 ^ 32 -> next g = Ok (r, g') ->
  exists x, randDoubleClosed next g = Ok (x, g') /\ is_finite x = true /\ (0 <= B2R x <= 1)%R /\ (B2R x = 1%R <-> r = 2 ^ 32 - 1) /\
    (forall h r2 h' x2, next h = Ok (r2, h') -> r <= r2 < 2 ^ 32 -> randDoubleClosed next h = Ok (x2, h') -> (B2R x <= B2R x2)%R).
Proof.
  intros G next g r g' H E. unfold randDoubleClosed. rewrite E. cbn [bind]. eexists. split; [reflexivity|]. split; [now apply closed_spec|]. destruct (closed_range r H) as (A & B). split; [exact A|]. split; [exact B|].
  intros h r2 h' x2 E2 H2 Q. rewrite E2 in Q. cbn [bind] in Q. injection Q as <-. apply closed_mono; lia.
Qed.
Print Assumptions C45_double_closed.
(** randDoubleOpen53 is a multiple of 2^-53 in [0,1) made of the top 27 bits of one word
    and the top 26 bits of the next. *)
Theorem C45_double_open53 : forall (G : Type) (next : G -> res (Z * G)) g r1 r2 g', 0 <= r1 < 2 ^ 32 -> 0 <= r2 < 2 ^ 32 -> emits next g [r1; r2] g' ->
  exists x, randDoubleOpen53 next g = Ok (x, g') /\ is_finite x = true /\ B2R x = (IZR (r1 / 2 ^ 5 * 2 ^ 26 + r2 / 2 ^ 6) / IZR (2 ^ 53))%R /\ (0 <= B2R x < 1)%R.
Proof.
  intros G next g r1 r2 g' H1 H2 E. inversion E as [|? ? g1 ? ? E1 T]; subst. inversion T as [|? ? g2 ? ? E2 T2]; subst. inversion T2; subst.
  unfold randDoubleOpen53. rewrite E1. cbn [bind]. rewrite E2. cbn [bind]. eexists. split; [reflexivity|]. rewrite !Z.shiftr_div_pow2 by lia.
  assert (A : 0 <= r1 / 2 ^ 5 < 2 ^ 27) by (split; [apply Z.div_pos; lia|apply Z.div_lt_upper_bound; lia]). assert (B : 0 <= r2 / 2 ^ 6 < 2 ^ 26) by (split; [apply Z.div_pos; lia|apply Z.div_lt_upper_bound; lia]).
  destruct (open53_spec _ _ A B) as (V & F). split; [exact F|]. split; [exact V|]. rewrite V. split; [apply quot_nonneg; lia|apply (quot_lt _ (2 ^ 53) 1); lia].
Qed.
Print Assumptions C45_double_open53.
(** randDoubleClosed53 is in [0,1], and 1 exactly when all 53 bits are set. *)
Theorem C45_double_closed53 : forall (G : Type) (next : G -> res (Z * G)) g r1 r2 g', 0 <= r1 < 2 ^ 32 -> 0 <= r2 < 2 ^ 32 -> emits next g [r1; r2] g' ->
  exists x, randDoubleClosed53 next g = Ok (x, g') /\ is_finite x = true /\ B2R x = rnd (IZR (r1 / 2 ^ 5 * 2 ^ 26 + r2 / 2 ^ 6) / IZR (2 ^ 53 - 1)) /\
    (0 <= B2R x <= 1)%R /\ (B2R x = 1%R <-> r1 / 2 ^ 5 = 2 ^ 27 - 1 /\ r2 / 2 ^ 6 = 2 ^ 26 - 1).
Proof.
  intros G next g r1 r2 g' H1 H2 E. inversion E as [|? ? g1 ? ? E1 T]; subst. inversion T as [|? ? g2 ? ? E2 T2]; subst. inversion T2; subst.
  unfold randDoubleClosed53. rewrite E1. cbn [bind]. rewrite E2. cbn [bind]. eexists. split; [reflexivity|]. rewrite !Z.shiftr_div_pow2 by lia.
  assert (A : 0 <= r1 / 2 ^ 5 < 2 ^ 27) by (split; [apply Z.div_pos; lia|apply Z.div_lt_upper_bound; lia]). assert (B : 0 <= r2 / 2 ^ 6 < 2 ^ 26) by (split; [apply Z.div_pos; lia|apply Z.div_lt_upper_bound; lia]).
  destruct (closed53_spec _ _ A B) as (V & F). split; [exact F|]. split; [exact V|]. rewrite V. destruct (closed53_range (r1 / 2 ^ 5 * 2 ^ 26 + r2 / 2 ^ 6)) as (R & O); [lia|]. split; [exact R|]. rewrite O. lia.
Qed.
Print Assumptions C45_double_closed53.
Example C45_double_run : emits next_of [4294967295; 12345; 9] [4294967295; 12345] [9] /\
  randDoubleClosed next_of [4294967295; 9] = Ok (dmul (of_Z 4294967295) MTR_int_to_closed, [9]) /\ Bltb (dmul (of_Z (2 ^ 32 - 2)) MTR_int_to_closed) (of_Z 1) = true.
Proof. split; [|split; [reflexivity|exact closed_below_max]]. econstructor; [reflexivity|]. econstructor; [reflexivity|]. constructor. Qed.
