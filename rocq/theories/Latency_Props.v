(** C115: measuring the clock. *)
From Coq Require Import List Arith ZArith QArith Lia Lqa Bool Permutation Sorted ZifyBool ZifyNat ZifyN.
From Verif Require Import Common CommonFacts Latency_Model Latency_Spec.
Import ListNotations.
Local Open Scope Z_scope.

Section Sort.
Context {A : Type}.
Variable leb : A -> A -> bool.
Variable le : A -> A -> Prop.
Hypothesis leb_le : forall a b, leb a b = true <-> le a b.
Hypothesis total : forall a b, le a b \/ le b a.
Hypothesis trans : forall a b c, le a b -> le b c -> le a c.
Lemma ins_perm x l : Permutation (insert_by leb x l) (x :: l).
Proof. induction l as [|y l IH]; cbn; [reflexivity|]. destruct (leb x y); [reflexivity|]. rewrite IH. apply perm_swap. Qed.
Lemma sort_by_perm l : Permutation (sort_by leb l) l.
Proof. induction l as [|x l IH]; cbn; [reflexivity|]. rewrite ins_perm. now constructor. Qed.
Lemma ins_sorted x l : StronglySorted le l -> StronglySorted le (insert_by leb x l).
Proof.
  induction l as [|y l IH]; intros S; cbn [insert_by]; [repeat constructor|]. inversion_clear S as [|? ? Sl Hy]. destruct (leb x y) eqn:L.
  - apply leb_le in L. constructor; [now constructor|]. constructor; [exact L|]. eapply Forall_impl; [|exact Hy]. intros z Hz. eapply trans; eauto.
  - assert (Q : le y x) by (destruct (total x y) as [Q|Q]; [apply leb_le in Q; congruence|exact Q]). constructor; [now apply IH|]. eapply Permutation_Forall; [symmetry; apply ins_perm|]. now constructor.
Qed.
Lemma sort_by_sorted l : StronglySorted le (sort_by leb l).
Proof. induction l as [|x l IH]; cbn [sort_by]; [constructor|now apply ins_sorted]. Qed.
Lemma sorted_mid a x b : StronglySorted le (a ++ x :: b) -> (forall y, In y a -> le y x) /\ (forall y, In y b -> le x y).
Proof.
  induction a as [|z a IH]; cbn [app]; intros S; inversion_clear S as [|? ? Sl Hz].
  - split; [easy|]. now rewrite Forall_forall in Hz.
  - destruct (IH Sl) as (H1 & H2). split; [|exact H2]. intros y [<-|I]; [|now apply H1]. rewrite Forall_forall in Hz. apply Hz. apply in_or_app. right. now left.
Qed.
Lemma sort_rank k l x : get (sort_by leb l) k = Ok x -> rank le k l x.
Proof.
  unfold get. intros E. destruct (nth_error (sort_by leb l) k) as [y|] eqn:En; [|discriminate]. injection E as ->. apply nth_error_split in En as (a & b & E & L). pose proof (sort_by_sorted l) as S. rewrite E in S. apply sorted_mid in S as (H1 & H2). exists a, b. split; [rewrite <- E; symmetry; apply sort_by_perm|]. repeat split; assumption.
Qed.
End Sort.

Lemma wait_inv : forall start script cur rest, wait_change start script = Ok (cur, rest) -> exists n, script = repeat start n ++ cur :: rest /\ cur <> start.
Proof.
  induction script as [|x script IH]; intros cur rest E; cbn in E; [discriminate|]. destruct (Z.eqb_spec start x) as [<-|N].
  - destruct (IH _ _ E) as (n & -> & H). now exists (S n).
  - injection E as <- <-. exists 0%nat. split; [reflexivity|congruence].
Qed.
Lemma count_inv : forall start script k n cur rest, count_same start script k = Ok (n, cur, rest) -> exists m, script = repeat start m ++ cur :: rest /\ cur <> start /\ n = k + Z.of_nat m.
Proof.
  induction script as [|x script IH]; intros k n cur rest E; cbn in E; [discriminate|]. destruct (Z.eqb_spec start x) as [<-|N].
  - destruct (IH _ _ _ _ E) as (m & -> & H & ->). exists (S m). split; [reflexivity|]. split; [exact H|lia].
  - injection E as <- <- <-. exists 0%nat. split; [reflexivity|]. split; [congruence|lia].
Qed.
Lemma repeat_last (x : Z) n d : last (repeat x (S n)) d = x.
Proof. induction n as [|n IH]; [reflexivity|]. change (repeat x (S (S n))) with (x :: repeat x (S n)). cbn [last]. destruct (repeat x (S n)) eqn:E; [discriminate|]. rewrite <- E in IH |- *. exact IH. Qed.
Lemma quantum_inv script m rest : quantum script = Ok (m, rest) -> (exists used, script = used ++ rest) /\ (forall q, m = Some q -> whole_quantum script q).
Proof.
  unfold quantum. destruct script as [|s script]; [discriminate|]. destruct (wait_change s script) as [[cur r1]| | |] eqn:E1; cbn [bind]; try discriminate. destruct (count_same cur r1 1) as [[[n nx] r2]| | |] eqn:E2; cbn [bind]; try discriminate. apply wait_inv in E1 as (i & -> & Nc). apply count_inv in E2 as (j & -> & Nn & En). intros E.
  assert (R : r2 = rest) by (destruct (nx <? cur); [injection E as _ ->; reflexivity|]; destruct (cur <? nx); cbn [invariant bind] in E; [injection E as _ ->; reflexivity|discriminate]). subst r2. split.
  - exists (s :: repeat s i ++ cur :: repeat cur j ++ [nx]). cbn [app]. f_equal. rewrite <- !app_assoc. cbn [app]. rewrite <- app_assoc. reflexivity.
  - intros q ->. destruct (Z.ltb_spec nx cur); [discriminate|]. destruct (Z.ltb_spec cur nx) as [L|]; cbn [invariant bind] in E; [|discriminate]. injection E as <-.
    exists (s :: repeat s i), cur, nx, (S j), rest. split; [lia|]. split; [cbn [repeat app]; reflexivity|]. split; [exact L|]. split; [exists s; change (s :: repeat s i) with (repeat s (S i)); rewrite repeat_last; congruence|]. split; [discriminate|].
    replace n with (Z.of_nat (S j)) by lia. assert (0 < inject_Z (Z.of_nat (S j)))%Q by (unfold Qlt; cbn; lia). field. lra.
Qed.
Lemma whole_more used script q : whole_quantum script q -> whole_quantum (used ++ script) q.
Proof.
  intros (b & s & x & c & a & H1 & -> & H2 & (d & H3) & H4 & H5). exists (used ++ b), s, x, c, a. split; [exact H1|]. split; [now rewrite <- app_assoc|]. split; [exact H2|]. split; [|split; [|exact H5]].
  - exists d. assert (L : forall u, last (u ++ b) d = last b d); [|now rewrite L]. induction u as [|y u IH]; [reflexivity|]. cbn [app last]. destruct (u ++ b) eqn:E; [apply app_eq_nil in E as (_ & E); congruence|]. exact IH.
  - intros E. apply app_eq_nil in E as (_ & E). congruence.
Qed.
Lemma quanta_inv : forall fuel need script ms, quanta fuel need script = Ok ms -> length ms = need /\ forall q, In q ms -> whole_quantum script q.
Proof.
  induction fuel as [|f IH]; intros [|n] script ms E; cbn [quanta] in E; try discriminate; try (injection E as <-; split; [reflexivity|easy]).
  destruct (quantum script) as [[[q|] rest]| | |] eqn:Eq; cbn [bind] in E; try discriminate; apply quantum_inv in Eq as ((u & ->) & W).
  - destruct (quanta f n rest) as [r| | |] eqn:Er; cbn [bind] in E; try discriminate. injection E as <-. apply IH in Er as (L & H). split; [cbn; lia|]. intros q' [<-|I]; [now apply W|]. apply whole_more. now apply H.
  - apply IH in E as (L & H). split; [exact L|]. intros q I. apply whole_more. now apply H.
Qed.
(** estimateTodTfracLatency gives the second shortest of five times per call, each from a
    whole quantum of the clock; it is positive. *)
Theorem C115_latency : forall script r, estimateTodTfracLatency script = Ok r ->
  (0 < r)%Q /\ exists ms, length ms = 5%nat /\ (forall q, In q ms -> whole_quantum script q) /\ rank Qle 1 ms r.
Proof.
  intros script r E. unfold estimateTodTfracLatency in E. destruct (quanta _ 5 script) as [ms| | |] eqn:Em; cbn [bind] in E; try discriminate. apply quanta_inv in Em as (L & W). apply (sort_rank Qle_bool Qle Qle_bool_iff) in E; [|intros a b; destruct (Qlt_le_dec a b) as [H|H]; [left; now apply Qlt_le_weak|now right]|apply Qle_trans].
  split; [|now exists ms]. destruct E as (lo & up & P & _). assert (I : In r ms) by (eapply Permutation_in; [symmetry; exact P|]; apply in_or_app; right; now left). destruct (W r I) as (b & s & x & c & a & H1 & _ & H2 & _ & _ & ->).
  assert (0 < inject_Z (x - s))%Q by (unfold Qlt; cbn; lia). assert (0 < inject_Z (Z.of_nat c))%Q by (unfold Qlt; cbn; lia). apply Qlt_shift_div_l; lra.
Qed.
Print Assumptions C115_latency.
(** If the clock stands still it never returns. *)
Theorem C115_still_refuted : forall t n, estimateTodTfracLatency (repeat t n) = Fuel.
Proof.
  intros t n. unfold estimateTodTfracLatency. assert (W : forall n, wait_change t (repeat t n) = Fuel) by (clear; induction n as [|n IH]; cbn; [reflexivity|]; now rewrite Z.eqb_refl). cbn [quanta]. unfold quantum. destruct n as [|n]; [reflexivity|]. cbn [repeat]. now rewrite W.
Qed.
Print Assumptions C115_still_refuted.

Definition tod (x : triple) : Z := snd (fst x).
Definition took (x : triple) : Z := to_tll (snd x - fst (fst x)).
Lemma init_inv : forall script i prev el de el' de', init_loop script i prev el de = Ok (el', de') -> length el = i -> ((length de <= 20)%nat \/ (i <= 500)%nat) ->
  exists used rest, script = used ++ rest /\ el' = el ++ map took used /\ de' = de ++ changes prev (map tod used) /\ (500 <= length el')%nat /\ (20 <= length de')%nat /\ (length el' = 500%nat \/ length de' = 20%nat).
Proof.
  induction script as [|[[a cur] b] script IH]; intros i prev el de el' de' E L H; cbn [init_loop] in E.
  - destruct ((i <? 500) || (length de <? 20))%nat eqn:C; [discriminate|]. injection E as <- <-. exists [], []. cbn. rewrite !app_nil_r. repeat split; lia.
  - destruct ((i <? 500) || (length de <? 20))%nat eqn:C.
    + destruct (Z.ltb_spec 0 ((cur - prev) mod 2 ^ 64)) as [P|P].
      * apply IH in E; [|rewrite app_length; cbn; lia|rewrite app_length; cbn; lia]. destruct E as (u & r & -> & -> & -> & R). exists ((a, cur, b) :: u), r. split; [reflexivity|]. cbn [map changes]. replace (took (a, cur, b)) with (to_tll (b - a)) by reflexivity. change (tod (a, cur, b)) with cur. destruct (Z.eqb_spec ((cur - prev) mod 2 ^ 64) 0); [lia|]. split; [now rewrite <- app_assoc|]. split; [now rewrite <- app_assoc|exact R].
      * apply IH in E; [|rewrite app_length; cbn; lia|lia]. destruct E as (u & r & -> & -> & -> & R). exists ((a, cur, b) :: u), r. split; [reflexivity|]. cbn [map changes]. replace (took (a, cur, b)) with (to_tll (b - a)) by reflexivity. change (tod (a, cur, b)) with cur. pose proof (Z.mod_pos_bound (cur - prev) (2 ^ 64) eq_refl). destruct (Z.eqb_spec ((cur - prev) mod 2 ^ 64) 0); [|lia]. split; [now rewrite <- app_assoc|]. split; [reflexivity|exact R].
    + injection E as <- <-. exists [], ((a, cur, b) :: script). cbn. rewrite !app_nil_r. repeat split; lia.
Qed.
(** The bound for a usable reading of the time is twice the first quartile of the cycles one
    takes, and the quantum of the clock the first quartile of its steps; over 500 readings,
    or as many as it takes to see 20 steps. *)
Theorem C115_initial : forall prev script mx q, initialMeasurements prev script = Ok (mx, q) ->
  exists used rest x, script = used ++ rest /\ mx = 2 * x /\
    rank Z.le (length used / 4) (map took used) x /\
    (let steps := changes prev (map tod used) in rank Z.le (length steps / 4) steps q /\ (20 <= length steps)%nat /\
     (500 <= length used)%nat /\ (length used = 500%nat \/ length steps = 20%nat)).
Proof.
  intros prev script mx q E. unfold initialMeasurements in E. destruct (init_loop script 0 prev [] []) as [[el de]| | |] eqn:Ei; cbn [bind] in E; try discriminate. destruct (get (sort_by Z.leb el) (length el / 4)) as [x| | |] eqn:E1; cbn [bind] in E; try discriminate. destruct (get (sort_by Z.leb de) (length de / 4)) as [d| | |] eqn:E2; cbn [bind] in E; try discriminate. injection E as <- <-.
  apply init_inv in Ei; [|reflexivity|right; lia]. destruct Ei as (u & r & -> & -> & -> & H1 & H2 & H3). cbn [app] in *. rewrite map_length in *. exists u, r, x. split; [reflexivity|]. split; [reflexivity|].
  assert (T : forall a b, a <= b \/ b <= a) by lia. split; [apply (sort_rank Z.leb Z.le Z.leb_le T Z.le_trans); exact E1|]. cbv zeta. split; [apply (sort_rank Z.leb Z.le Z.leb_le T Z.le_trans); exact E2|]. auto.
Qed.
Print Assumptions C115_initial.

(** The cycles of a quantum are estimated by a "truncated mean", but the measurements are
    not put in order first: one bad one of ten makes the estimate as large as you like. *)
Theorem C115_outlier_refuted : forall n, exists cycles, length cycles = 10%nat /\
  (exists x, Permutation cycles (x :: repeat 1000 9)) /\ n < cycles_per_quanta cycles.
Proof.
  intros n. exists ([1000; 1000; 5 * Z.abs n] ++ repeat 1000 7). split; [reflexivity|]. split.
  - exists (5 * Z.abs n). cbn [app repeat]. do 2 (rewrite perm_swap; apply perm_trans with (1000 :: 5 * Z.abs n :: repeat 1000 8); [|apply perm_swap] || idtac). apply Permutation_sym. apply (Permutation_cons_app [1000; 1000] (repeat 1000 7)). reflexivity.
  - unfold cycles_per_quanta. cbn [app repeat skipn firstn fold_right]. apply Z.lt_le_trans with (m := (10 * (Z.abs n + 1)) / 10); [rewrite Z.mul_comm, Z.div_mul by lia; lia|]. apply Z.div_le_mono; lia.
Qed.
Print Assumptions C115_outlier_refuted.

(** Five quanta of 50, 25, 40, 10 and 15 units per reading, and one step back that is left out. *)
Definition ex_readings : list Z := [0; 100; 100; 200; 200; 300; 300; 300; 300; 400; 400; 50; 40; 40; 60; 100; 100; 110; 110; 110; 110; 110; 160; 160; 200; 200; 230].
Example C115_ex : (let! q := estimateTodTfracLatency ex_readings in Ok (Qred (q * 4294967296))) = Ok (15 # 1)%Q /\
  initialMeasurements 0 (map (fun k => (100 * Z.of_nat k, Z.of_nat k / 10, 100 * Z.of_nat k + 30 + Z.of_nat k mod 4))%Z (seq 0 600)) = Ok (62, 1).
Proof. split; vm_compute; reflexivity. Qed.
