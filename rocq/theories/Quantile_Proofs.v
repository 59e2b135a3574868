(** StatsQuantile objects as (full buffers with levels, values being filled). *)
From Coq Require Import List Arith ZArith NArith Lia Bool Permutation Sorted ZifyBool ZifyNat ZifyN.
From Verif Require Import Common CommonFacts ListFacts PriorityQueue_Model Quantile_Model Quantile_Facts Quantile_Merge Quantile_Bin Quantile_Collapse.
Import ListNotations.
Local Open Scope nat_scope.

Notation fulls := (list (nat * list Z)).

Record Shape (s : quantile) : Prop := {
  sh_nb : 2 <= nbuffers s;
  sh_bs : 10 <= buffer_size s;
  sh_le : nbuffers s <= buffer_size s;
  sh_big : (Z.of_nat (buffer_size s) < 2 ^ 31)%Z;
  sh_bufs : length (all_buffers s) = nbuffers s;
  sh_wt : length (buffer_weight s) = nbuffers s;
  sh_lev : length (buffer_level s) = nbuffers s;
  sh_sor : length (buffer_sorted s) = nbuffers s;
  sh_cp : length (collapse_pos s) = buffer_size s;
  sh_cells : forall i c, nth_error (all_buffers s) i = Some (Some c) -> length c = buffer_size s;
  sh_alloc : q_lazy s = false -> forall i, nth_error (all_buffers s) i <> Some None
}.

Definition full_ok (s : quantile) (i : nat) (b : nat * list Z) : Prop :=
  nth_error (all_buffers s) i = Some (Some (map Some (snd b))) /\ length (snd b) = buffer_size s /\ StronglySorted Z.le (snd b)
  /\ nth_error (buffer_weight s) i = Some (Z.of_nat (wt (nbuffers s - i) (fst b)))
  /\ nth_error (buffer_level s) i = Some (Z.of_nat (fst b))
  /\ nth_error (buffer_sorted s) i = Some true.

Definition plevel (nb : nat) (F : fulls) : nat := if S (length F) =? nb then last (map fst F) 0 else 0.
Definition mono (F : fulls) : Prop := forall i a b, nth_error F i = Some a -> nth_error F (S i) = Some b -> fst b <= fst a.

Record RepF (s : quantile) (F : fulls) (P : list Z) : Prop := {
  rf_shape : Shape s;
  rf_cur : cur_buffer s = Z.of_nat (length F);
  rf_lt : length F < nbuffers s;
  rf_pos : cur_buffer_pos s = length P;
  rf_le : length P <= buffer_size s;
  rf_full : forall i b, nth_error F i = Some b -> full_ok s i b;
  rf_mono : mono F;
  rf_buf : exists c, nth_error (all_buffers s) (length F) = Some (Some c) /\ firstn (length P) c = map Some P;
  rf_wt : nth_error (buffer_weight s) (length F) = Some 1%Z;
  rf_lev : nth_error (buffer_level s) (length F) = Some (Z.of_nat (plevel (nbuffers s) F));
  rf_sor : exists so, nth_error (buffer_sorted s) (length F) = Some so /\ (so = true -> StronglySorted Z.le P)
}.
Definition RepL (s : quantile) : Prop := Shape s /\ cur_buffer s = (-1)%Z /\ cur_buffer_pos s = S (buffer_size s).
Definition Rep (s : quantile) (F : fulls) (P : list Z) : Prop := (RepF s F P /\ (P <> [] \/ F = [])) \/ (RepL s /\ F = [] /\ P = []).

(** ** One addition, abstractly *)
Fixpoint weigh (b : nat) (G : fulls) : list (nat * list Z) :=
  match G with [] => [] | x :: r => (wt b (fst x), snd x) :: weigh (b - 1) r end.

Inductive astep (nb bs : nat) (e : bool) (F : fulls) (P : list Z) (v : Z) : bool -> fulls -> list Z -> Prop :=
| st_append : length P < bs -> astep nb bs e F P v e F (P ++ [v])
| st_next : length P = bs -> S (length F) < nb -> astep nb bs e F P v e (F ++ [(0, isort P)]) [v]
| st_collapse F1 G l : length P = bs -> S (length F) = nb -> F ++ [(plevel nb F, P)] = F1 ++ G ->
    (forall b, In b G -> fst b = l) -> 2 <= length G -> (forall b, In b F1 -> S l <= fst b) ->
    let W := wsumL (weigh (nb - length F1) G) in
    let o := Z.to_nat (fst (collapseNextQuantileOffset e (Z.of_nat W))) in
    astep nb bs e F P v (snd (collapseNextQuantileOffset e (Z.of_nat W)))
      (F1 ++ [(S l, pick (isort (massL (weigh (nb - length F1) G))) W (o - 1) bs)]) [v].

Lemma weigh_length b G : length (weigh b G) = length G.
Proof. revert b; induction G; intros; simpl; auto. Qed.
Lemma weigh_nth b G j w vs : nth_error (weigh b G) j = Some (w, vs) -> exists x, nth_error G j = Some x /\ w = wt (b - j) (fst x) /\ vs = snd x.
Proof.
  revert b j; induction G as [|x G IH]; intros b [|j] E; simpl in *; try discriminate.
  - injection E as <- <-. exists x. rewrite Nat.sub_0_r. auto.
  - destruct (IH _ _ E) as (y & A & B & C). exists y. split; auto. split; auto. rewrite B. f_equal. lia.
Qed.
Lemma weigh_app b G1 G2 : weigh b (G1 ++ G2) = weigh b G1 ++ weigh (b - length G1) G2.
Proof. revert b; induction G1 as [|x G1 IH]; intros b; simpl; [now rewrite Nat.sub_0_r|]. rewrite IH. do 3 f_equal. lia. Qed.
Lemma weigh_wsum G l : (forall b, In b G -> fst b = l) -> wsumL (weigh (length G) G) = wsum (length G) l.
Proof.
  induction G as [|x G IH]; intros H; [reflexivity|]. cbn [weigh length wsumL fold_right wsum fst snd]. rewrite Nat.sub_succ, Nat.sub_0_r.
  rewrite (H x (or_introl eq_refl)). f_equal. apply IH. intros b Hb. apply H. now right.
Qed.

(** The last run of equal levels. *)
Lemma last_run (G : fulls) : G <> [] -> exists F1 G2 l, G = F1 ++ G2 /\ G2 <> [] /\ (forall b, In b G2 -> fst b = l)
  /\ (F1 = [] \/ exists F0 b, F1 = F0 ++ [b] /\ fst b <> l).
Proof.
  intros H. pose proof (exists_last H) as (G0 & x & ->). clear H. revert x. induction G0 as [|y G0 IH] using rev_ind; intros x.
  - exists [], [x], (fst x). simpl. split; auto. split; [discriminate|]. split; [intros b [<-|[]]; auto|auto].
  - destruct (Nat.eq_dec (fst y) (fst x)) as [E|E].
    + destruct (IH y) as (F1 & G2 & l & E1 & N & A & B). exists F1, (G2 ++ [x]), l. rewrite E1, app_assoc. split; auto. split; [now destruct G2|].
      assert (Hy : fst y = l). { apply A. destruct (exists_last N) as (G3 & z & ->). rewrite app_assoc in E1. apply app_inj_tail in E1. destruct E1 as [_ ->]. apply in_or_app. simpl; auto. }
      split; auto. intros b Hb. apply in_app_or in Hb. destruct Hb as [Hb|[<-|[]]]; auto. congruence.
    + exists (G0 ++ [y]), [x], (fst x). split; auto. split; [discriminate|]. split; [intros b [<-|[]]; auto|]. right. exists G0, y. auto.
Qed.

Lemma last_map_fst (F : fulls) b : last (map fst (F ++ [b])) 0 = fst b.
Proof. rewrite map_app. simpl. apply last_last. Qed.

Lemma mono_app F1 F2 : mono (F1 ++ F2) -> mono F1 /\ mono F2.
Proof.
  intros M. split; intros i a b A B.
  - apply (M i a b); rewrite nth_error_app1; auto; eapply nth_error_lt; eauto.
  - apply (M (length F1 + i) a b). { rewrite nth_error_app2 by lia. now replace (length F1 + i - length F1) with i by lia. }
    rewrite nth_error_app2 by lia. now replace (S (length F1 + i) - length F1) with (S i) by lia.
Qed.
Lemma mono_ge F b x : mono (F ++ [b]) -> In x F -> fst b <= fst x.
Proof.
  revert b. induction F as [|y F IH] using rev_ind; intros b M Hx; [destruct Hx|].
  assert (Hb : fst b <= fst y). { apply (M (length F) y b). - rewrite <- app_assoc, nth_error_app2, Nat.sub_diag by lia. reflexivity.
    - replace (S (length F)) with (length (F ++ [y])) by (rewrite app_length; simpl; lia). rewrite nth_error_app2, Nat.sub_diag by lia. reflexivity. }
  apply in_app_or in Hx. destruct Hx as [Hx|[<-|[]]]; auto. destruct (mono_app _ _ M) as [M1 _]. specialize (IH y M1 Hx). lia.
Qed.
Lemma mono_snoc F b : mono F -> (forall x, In x F -> fst b <= fst x) -> mono (F ++ [b]).
Proof.
  intros M H i x y A B. assert (L : S i < length (F ++ [b])) by (now apply nth_error_lt in B). rewrite app_length in L. simpl in L.
  rewrite nth_error_app1 in A by lia. destruct (Nat.eq_dec (S i) (length F)) as [E|E].
  - rewrite E, nth_error_app2, Nat.sub_diag in B by lia. injection B as <-. apply H. now apply nth_error_In in A.
  - rewrite nth_error_app1 in B by lia. now apply (M i).
Qed.

(** ** addQuantile in three parts *)
Definition fresh (s : quantile) : res quantile :=
      let! _ := invariant (cur_buffer s <? Z.of_nat (nbuffers s))%Z in
      let! c := index (cur_buffer s) in
      let! b := get (all_buffers s) c in
      let! s :=
        match b with
        | None => if q_lazy s then
                    let! a := put (all_buffers s) c (Some (repeat None (buffer_size s))) in Ok (set_bufs s a)
                  else Ok s
        | Some _ => Ok s
        end in
      let! w := put (buffer_weight s) c 1%Z in
      let! l := put (buffer_level s) c 0%Z in
      let! l :=
        (if cur_buffer s =? Z.of_nat (nbuffers s) - 1 then
           let! j := index (cur_buffer s - 1) in
           let! x := get l j in put l c x
         else Ok l)%Z in
      Ok (set_meta s w l (buffer_sorted s)).
Definition write (v : Z) (s : quantile) : res quantile :=
  let! c := index (cur_buffer s) in
  let! so := put (buffer_sorted s) c false in
  let! b := buffer_of s c in
  let! b := put b (cur_buffer_pos s) (Some v) in
  let! a := put (all_buffers s) c (Some b) in
  let s := set_bufs (set_meta s (buffer_weight s) (buffer_level s) so) a in
  Ok (set_cur s (cur_buffer s) (S (cur_buffer_pos s))).
Definition advance (s : quantile) : res quantile :=
        (if cur_buffer s =? Z.of_nat (nbuffers s) then collapse s
         else if 0 <? cur_buffer s then
           let! i := index (cur_buffer s - 1) in
           let! s := sort_buffer s i (buffer_size s) in
           let! so := put (buffer_sorted s) i true in
           Ok (set_meta s (buffer_weight s) (buffer_level s) so)
         else Ok s)%Z.
Lemma addQuantile_unfold s v : addQuantile s v =
  bind (if buffer_size s <=? cur_buffer_pos s then bind (advance (set_cur s (cur_buffer s + 1) 0)) fresh else Ok s) (write v).
Proof. reflexivity. Qed.

Lemma index_nat n : index (Z.of_nat n) = Ok n.
Proof. unfold index. replace (Z.of_nat n <? 0)%Z with false by lia. f_equal. lia. Qed.

Lemma firstn_upd_snoc {A} (c : list A) n x : n < length c -> firstn (S n) (upd c n x) = firstn n c ++ [x].
Proof. revert n; induction c as [|y c IH]; intros [|n] H; simpl in *; try lia; auto. f_equal. apply IH. lia. Qed.

(** fields that never change in these steps *)
Definition same (s s' : quantile) : Prop :=
  nbuffers s' = nbuffers s /\ buffer_size s' = buffer_size s /\ q_nbound s' = q_nbound s /\ q_count s' = q_count s /\ q_lazy s' = q_lazy s.
Lemma same_refl s : same s s. Proof. repeat split. Qed.
Lemma same_trans a b c : same a b -> same b c -> same a c.
Proof. intros (A1 & A2 & A3 & A4 & A5) (B1 & B2 & B3 & B4 & B5). repeat split; congruence. Qed.

Lemma write_spec s F P v : RepF s F P -> length P < buffer_size s ->
  exists s', write v s = Ok s' /\ RepF s' F (P ++ [v]) /\ same s s' /\ collapse_even_low s' = collapse_even_low s.
Proof.
  intros [Sh C Lt Ps Le Fu Mo (c & Eb & Ec) Wt Lv (so & Eso & Hso)] Room. unfold write, buffer_of.
  rewrite C, index_nat. cbn [bind]. rewrite put_ok by (rewrite (sh_sor _ Sh); lia). cbn [bind]. rewrite (get_nth _ _ _ Eb). cbn [bind].
  assert (Lc := sh_cells _ Sh _ _ Eb). rewrite Ps, put_ok by lia. cbn [bind]. rewrite put_ok by (rewrite (sh_bufs _ Sh); lia). cbn [bind].
  eexists. split; [reflexivity|]. split; [|split; [repeat split|reflexivity]].
  unfold set_cur, set_bufs, set_meta; cbn [q_nbound buffer_size nbuffers all_buffers buffer_weight buffer_level cur_buffer cur_buffer_pos buffer_sorted collapse_pos collapse_even_low q_lazy q_count].
  split; cbn [q_nbound buffer_size nbuffers all_buffers buffer_weight buffer_level cur_buffer cur_buffer_pos buffer_sorted collapse_pos collapse_even_low q_lazy q_count]; auto.
  - destruct Sh. split; cbn; auto; try (rewrite length_upd; auto).
    + intros i c1 E. destruct (Nat.eq_dec i (length F)) as [->|N].
      * rewrite nth_error_upd_eq in E by lia. injection E as <-. now rewrite length_upd.
      * rewrite nth_error_upd_neq in E by lia. eauto.
    + intros Lz i E. destruct (Nat.eq_dec i (length F)) as [->|N].
      * rewrite nth_error_upd_eq in E by lia. discriminate.
      * rewrite nth_error_upd_neq in E by lia. now apply (sh_alloc0 Lz i).
  - rewrite app_length. simpl. lia.
  - rewrite app_length. simpl. lia.
  - intros i b E. assert (i < length F) by (now apply nth_error_lt in E). destruct (Fu i b E) as (A1 & A2 & A3 & A4 & A5 & A6).
    unfold full_ok; cbn. rewrite !nth_error_upd_neq by lia. repeat (split; auto).
  - exists (upd c (length P) (Some v)). split. { apply nth_error_upd_eq. rewrite (sh_bufs _ Sh); lia. }
    rewrite app_length, map_app. simpl. rewrite Nat.add_1_r, firstn_upd_snoc by lia. now rewrite Ec.
  - exists false. split; [|discriminate]. apply nth_error_upd_eq. rewrite (sh_sor _ Sh); lia.
Qed.

(** The state in which a new buffer is about to be opened. *)
Record Open (s : quantile) (F : fulls) : Prop := {
  op_shape : Shape s;
  op_cur : cur_buffer s = Z.of_nat (length F);
  op_lt : length F < nbuffers s;
  op_pos : cur_buffer_pos s = 0;
  op_full : forall i b, nth_error F i = Some b -> full_ok s i b;
  op_mono : mono F
}.

Lemma fresh_spec s F v : Open s F ->
  exists s', bind (fresh s) (write v) = Ok s' /\ RepF s' F [v] /\ same s s' /\ collapse_even_low s' = collapse_even_low s.
Proof.
  intros [Sh C Lt Ps Fu Mo]. unfold fresh. rewrite C. replace (Z.of_nat (length F) <? Z.of_nat (nbuffers s))%Z with true by lia. cbn [invariant bind].
  rewrite index_nat. cbn [bind]. destruct (get_lt (all_buffers s) (length F)) as (b & Eb & Gb); [rewrite (sh_bufs _ Sh); lia|]. rewrite Gb. cbn [bind].
  set (s1 := match b with Some _ => s | None => set_bufs s (upd (all_buffers s) (length F) (Some (repeat None (buffer_size s)))) end).
  match goal with |- context [bind (match b with Some _ => _ | None => _ end) _] => idtac end.
  assert (E1 : match b with
    | Some _ => Ok s
    | None => if q_lazy s then let! a := put (all_buffers s) (length F) (Some (repeat None (buffer_size s))) in Ok (set_bufs s a) else Ok s
    end = Ok s1).
  { subst s1. destruct b as [c|]; auto. destruct (q_lazy s) eqn:Lz; [|exfalso; now apply (sh_alloc _ Sh Lz (length F))].
    rewrite put_ok by (rewrite (sh_bufs _ Sh); lia). reflexivity. }
  rewrite E1. cbn [bind]. clear E1.
  assert (B1 : exists c, nth_error (all_buffers s1) (length F) = Some (Some c)).
  { subst s1. destruct b as [c|]; [eauto|]. eexists. cbn. apply nth_error_upd_eq. rewrite (sh_bufs _ Sh); lia. }
  assert (B2 : forall i, i <> length F -> nth_error (all_buffers s1) i = nth_error (all_buffers s) i).
  { subst s1. intros i N. destruct b; auto. cbn. rewrite nth_error_upd_neq; auto. }
  assert (Sh1 : Shape s1).
  { subst s1. destruct b; auto. destruct Sh. split; cbn; auto. { now rewrite length_upd. }
    - intros i c1 E. destruct (Nat.eq_dec i (length F)) as [->|N].
      * rewrite nth_error_upd_eq in E by lia. injection E as <-. now rewrite repeat_length.
      * rewrite nth_error_upd_neq in E by lia. eauto.
    - intros Lz i E. destruct (Nat.eq_dec i (length F)) as [->|N].
      * rewrite nth_error_upd_eq in E by lia. discriminate.
      * rewrite nth_error_upd_neq in E by lia. now apply (sh_alloc0 Lz i). }
  assert (M1 : buffer_weight s1 = buffer_weight s /\ buffer_level s1 = buffer_level s /\ buffer_sorted s1 = buffer_sorted s /\ same s s1
    /\ cur_buffer s1 = cur_buffer s /\ cur_buffer_pos s1 = cur_buffer_pos s /\ collapse_even_low s1 = collapse_even_low s).
  { subst s1. destruct b; cbn; repeat split. }
  destruct M1 as (Mw & Ml & Ms & Sm & Mc & Mp & Me). clearbody s1. destruct Sm as (Snb & Sbs & Snd & Sct & Slz).
  rewrite !put_ok by (rewrite ?(sh_wt _ Sh1), ?(sh_lev _ Sh1), ?Snb; lia). cbn [bind].
  set (lev := if (cur_buffer s1 =? Z.of_nat (nbuffers s1) - 1)%Z then _ else _).
  assert (EL : exists l1, lev = Ok l1 /\ length l1 = nbuffers s /\ nth_error l1 (length F) = Some (Z.of_nat (plevel (nbuffers s) F))
             /\ forall i, i < length F -> nth_error l1 i = nth_error (buffer_level s) i).
  { subst lev. rewrite Mc, C, Snb. unfold plevel. assert (Ll := sh_lev _ Sh1). rewrite Snb in Ll.
    destruct (Z.of_nat (length F) =? Z.of_nat (nbuffers s) - 1)%Z eqn:Q.
    - replace (S (length F) =? nbuffers s) with true by lia. assert (HN := sh_nb _ Sh).
      assert (NF : F <> []) by (intros NF; rewrite NF in Q; cbn [length] in Q; lia). destruct (exists_last NF) as (F0 & x0 & EF).
      replace (Z.of_nat (length F) - 1)%Z with (Z.of_nat (length F0)) by (rewrite EF, app_length; simpl; lia). rewrite index_nat. cbn [bind].
      assert (HF : length F = S (length F0)) by (rewrite EF, app_length; simpl; lia).
      assert (Lx : nth_error (buffer_level s) (length F0) = Some (Z.of_nat (fst x0))).
      { apply (Fu (length F0) x0). rewrite EF, nth_error_app2, Nat.sub_diag by lia. reflexivity. }
      rewrite (get_nth _ _ (Z.of_nat (fst x0))) by (rewrite nth_error_upd_neq by lia; rewrite Ml; exact Lx). cbn [bind].
      rewrite put_ok by (rewrite length_upd; lia). eexists. split; [reflexivity|]. split; [rewrite !length_upd; lia|].
      split. { rewrite nth_error_upd_eq by (rewrite length_upd; lia). rewrite EF, last_map_fst. reflexivity. }
      intros i Hi. rewrite !nth_error_upd_neq by lia. now rewrite Ml.
    - replace (S (length F) =? nbuffers s) with false by lia. eexists. split; [reflexivity|]. split; [rewrite length_upd; lia|].
      split. { rewrite nth_error_upd_eq by lia. reflexivity. }
      intros i Hi. rewrite !nth_error_upd_neq by lia. now rewrite Ml. }
  destruct EL as (l1 & -> & L1 & L2 & L3). cbn [bind].
  set (s2 := set_meta s1 _ _ _).
  assert (R2 : RepF s2 F []).
  { subst s2. destruct B1 as (c & B1). split; cbn [set_meta q_nbound buffer_size nbuffers all_buffers buffer_weight buffer_level cur_buffer cur_buffer_pos buffer_sorted collapse_pos collapse_even_low q_lazy q_count].
    - destruct Sh1. split; cbn; auto; try (rewrite length_upd; auto). congruence.
    - congruence. - congruence. - rewrite Mp. exact Ps. - simpl; lia.
    - intros i b' E. assert (i < length F) by (now apply nth_error_lt in E). destruct (Fu i b' E) as (A1 & A2 & A3 & A4 & A5 & A6).
      unfold full_ok; cbn. rewrite B2, L3, Snb, Sbs, Ms by lia. rewrite nth_error_upd_neq by lia. rewrite Mw. repeat (split; auto).
    - exact Mo.
    - exists c. split; auto.
    - apply nth_error_upd_eq. rewrite (sh_wt _ Sh1). lia.
    - now rewrite Snb.
    - destruct (get_lt (buffer_sorted s1) (length F)) as (so & A & _); [rewrite (sh_sor _ Sh1); lia|]. exists so. split; auto. intros _. constructor. }
  destruct (write_spec s2 F [] v R2) as (s3 & E3 & R3 & S3 & Ev3). { cbn. assert (H := sh_bs _ Sh). lia. }
  exists s3. split; auto. split; auto. split. { eapply same_trans; [|exact S3]. repeat split; auto. }
  rewrite Ev3. exact Me.
Qed.

Ltac fields := cbn [set_cur set_bufs set_meta set_cpos set_even set_count q_nbound buffer_size nbuffers all_buffers buffer_weight buffer_level cur_buffer
  cur_buffer_pos buffer_sorted collapse_pos collapse_even_low q_lazy q_count].

Lemma wt_0_pos b : 0 < b -> wt b 0 = 1.
Proof. destruct b; [lia|reflexivity]. Qed.
Lemma wt_pos' b l : 0 < b -> 0 < wt b l.
Proof. destruct b; [lia|]. intros _. apply wt_pos. Qed.
Lemma in_firstn_all {A} (c : list A) n : length c = n -> firstn n c = c.
Proof. intros <-. apply firstn_all. Qed.

(** closing a full buffer when another one is free *)
Lemma advance_next s F P : RepF s F P -> length P = buffer_size s -> S (length F) < nbuffers s ->
  exists s1, advance (set_cur s (cur_buffer s + 1) 0) = Ok s1 /\ Open s1 (F ++ [(0, isort P)]) /\ same s s1 /\ collapse_even_low s1 = collapse_even_low s.
Proof.
  intros [Sh C Lt Ps Le Fu Mo (c & Eb & Ec) Wt Lv (so & Eso & Hso)] Full Room. unfold advance. fields. rewrite C.
  replace (Z.of_nat (length F) + 1 =? Z.of_nat (nbuffers s))%Z with false by lia. replace (0 <? Z.of_nat (length F) + 1)%Z with true by lia.
  replace (Z.of_nat (length F) + 1 - 1)%Z with (Z.of_nat (length F)) by lia. rewrite index_nat. cbn [bind].
  assert (Lc := sh_cells _ Sh _ _ Eb). rewrite in_firstn_all in Ec by lia. subst c.
  unfold sort_buffer, buffer_of. fields. rewrite (get_nth _ _ _ Eb). cbn [bind]. rewrite sort_prefix_full by exact Full. cbn [bind].
  rewrite put_ok by (rewrite (sh_bufs _ Sh); lia). cbn [bind]. fields. rewrite put_ok by (rewrite (sh_sor _ Sh); lia). cbn [bind].
  eexists. split; [reflexivity|]. split; [|split; [repeat split|reflexivity]]. split; fields.
  - destruct Sh. split; fields; auto; try (rewrite length_upd; auto).
    + intros i c1 E. destruct (Nat.eq_dec i (length F)) as [->|N].
      * rewrite nth_error_upd_eq in E by lia. injection E as <-. now rewrite map_length, isort_length.
      * rewrite nth_error_upd_neq in E by lia. eauto.
    + intros Lz i E. destruct (Nat.eq_dec i (length F)) as [->|N].
      * rewrite nth_error_upd_eq in E by lia. discriminate.
      * rewrite nth_error_upd_neq in E by lia. now apply (sh_alloc0 Lz i).
  - rewrite app_length. simpl. lia.
  - rewrite app_length. simpl. lia.
  - reflexivity.
  - intros i b E. assert (Hi : i < length (F ++ [(0, isort P)])) by (now apply nth_error_lt in E). rewrite app_length in Hi. simpl in Hi.
    unfold full_ok; fields. destruct (Nat.eq_dec i (length F)) as [->|N].
    + rewrite nth_error_app2, Nat.sub_diag in E by lia. injection E as <-. cbn [fst snd].
      rewrite nth_error_upd_eq by (rewrite (sh_bufs _ Sh); lia). rewrite nth_error_upd_eq by (rewrite (sh_sor _ Sh); lia).
      rewrite isort_length. split; auto. split; auto. split; [apply isort_sorted|]. split. { rewrite Wt, wt_0_pos by lia. reflexivity. } split; auto.
      rewrite Lv. unfold plevel. now replace (S (length F) =? nbuffers s) with false by lia.
    + rewrite nth_error_app1 in E by lia. destruct (Fu i b E) as (A1 & A2 & A3 & A4 & A5 & A6). rewrite !nth_error_upd_neq by lia. repeat (split; auto).
  - apply mono_snoc; auto. intros; simpl; lia.
Qed.

(** closing the last buffer *)
Lemma advance_collapse s F P : RepF s F P -> length P = buffer_size s -> S (length F) = nbuffers s -> (q_count s < 10 ^ 14)%Z ->
  exists s1 e1 F', advance (set_cur s (cur_buffer s + 1) 0) = Ok s1 /\ Open s1 F' /\ same s s1 /\ collapse_even_low s1 = e1
    /\ forall v, astep (nbuffers s) (buffer_size s) (collapse_even_low s) F P v e1 F' [v].
Proof.
  intros [Sh C Lt Ps Le Fu Mo (c & Eb & Ec) Wt Lv (so & Eso & Hso)] Full Room Cnt. unfold advance. fields. rewrite C.
  replace (Z.of_nat (length F) + 1 =? Z.of_nat (nbuffers s))%Z with true by lia.
  assert (Lc := sh_cells _ Sh _ _ Eb). rewrite in_firstn_all in Ec by lia. subst c.
  assert (HN := sh_nb _ Sh). assert (HBS := sh_bs _ Sh). assert (HLE := sh_le _ Sh). assert (HBIG := sh_big _ Sh).
  set (pl := plevel (nbuffers s) F) in *. set (G := F ++ [(pl, P)]).
  assert (LG : length G = nbuffers s) by (unfold G; rewrite app_length; simpl; lia).
  assert (NF : F <> []) by (intros ->; simpl in Room; lia).
  destruct (exists_last NF) as (F0 & x0 & EF).
  assert (Epl : pl = fst x0). { unfold pl, plevel. replace (S (length F) =? nbuffers s) with true by lia. rewrite EF. apply last_map_fst. }
  assert (MG : mono G). { apply mono_snoc; auto. intros x Hx. cbn [fst]. rewrite Epl. rewrite EF in Hx, Mo. apply in_app_or in Hx. destruct Hx as [Hx|[<-|[]]]; auto. now apply (mono_ge F0 x0 x). }
  destruct (last_run G) as (F1 & G2 & l & EG & NG & AG & BG). { unfold G. now destruct F. }
  (* facts about every buffer of G *)
  assert (GA : forall i b, nth_error G i = Some b ->
     nth_error (all_buffers s) i = Some (Some (map Some (snd b))) /\ length (snd b) = buffer_size s
     /\ nth_error (buffer_weight s) i = Some (Z.of_nat (wt (nbuffers s - i) (fst b))) /\ nth_error (buffer_level s) i = Some (Z.of_nat (fst b))
     /\ exists so, nth_error (buffer_sorted s) i = Some so /\ (so = true -> StronglySorted Z.le (snd b)) /\ (so = false -> i = nbuffers s - 1)).
  { intros i b E. assert (Hi : i < length G) by (now apply nth_error_lt in E). unfold G in E. destruct (Nat.eq_dec i (length F)) as [->|N].
    - rewrite nth_error_app2, Nat.sub_diag in E by lia. injection E as <-. cbn [fst snd]. split; auto. split; auto.
      split. { rewrite Wt. replace (nbuffers s - length F) with 1 by lia. now rewrite wt_1. } split; auto. exists so. split; auto. split; auto. intros _. lia.
    - rewrite nth_error_app1 in E by lia. destruct (Fu i b E) as (A1 & A2 & A3 & A4 & A5 & A6). repeat (split; auto). exists true. repeat (split; auto). discriminate. }
  assert (L2 : 2 <= length G2).
  { destruct G2 as [|y1 [|y2 G2]]; try congruence; [|simpl; lia]. exfalso. unfold G in EG. rewrite EF in EG. apply app_inj_tail in EG. destruct EG as [<- <-].
    destruct BG as [BG|(F2 & b & E2 & Nb)]; [now destruct F0|]. apply app_inj_tail in E2. destruct E2 as [<- <-]. apply Nb. rewrite <- Epl. now apply (AG (pl, P) (or_introl eq_refl)). }
  assert (GF : forall b, In b F1 -> S l <= fst b).
  { destruct BG as [->|(F2 & b0 & -> & Nb)]; [intros b []|]. destruct G2 as [|y G2]; [congruence|].
    assert (Hy : fst y = l) by (apply AG; simpl; auto). replace (y :: G2) with ([y] ++ G2) in EG by reflexivity. rewrite app_assoc in EG. rewrite EG in MG.
    apply mono_app in MG. destruct MG as [MG _]. intros b Hb. pose proof (mono_ge _ _ b0 MG ltac:(apply in_or_app; simpl; auto)).
    apply mono_app in MG. destruct MG as [MG _]. apply in_app_or in Hb. destruct Hb as [Hb|[<-|[]]]; [|lia]. pose proof (mono_ge _ _ b MG Hb). lia. }
  assert (LF1 : length F1 + length G2 = nbuffers s) by (rewrite EG, app_length in LG; lia).
  set (L := weigh (nbuffers s - length F1) G2).
  set (s0 := set_cur s (Z.of_nat (length F) + 1) 0).
  assert (NthG : forall j x, nth_error G2 j = Some x -> nth_error G (length F1 + j) = Some x).
  { intros j x E. rewrite EG, nth_error_app2 by lia. now replace (length F1 + j - length F1) with j by lia. }
  destruct (collapse_spec s0 (length F1) L l) as (s1 & E1 & K1 & K2 & K3 & K4 & K5 & K6 & K7 & K8 & K9 & K10 & K11 & K12 & K13 & K14 & K15 & K16 & K17 & K18 & K19);
    try (subst s0; fields); auto.
  { unfold L. rewrite weigh_length. lia. } { unfold L. now rewrite weigh_length. } { lia. } { rewrite (sh_cp _ Sh). lia. }
  { apply (sh_wt _ Sh). } { apply (sh_lev _ Sh). } { apply (sh_sor _ Sh). } { lia. }
  { intros j w vs E. destruct (weigh_nth _ _ _ _ _ E) as (x & Ex & -> & ->). destruct (GA _ _ (NthG _ _ Ex)) as (A1 & A2 & A3 & A4 & A5). split; auto.
    rewrite A3. do 2 f_equal. f_equal. lia. }
  { intros j Hj. destruct (nth_error G2 (j - length F1)) as [x|] eqn:Ex; [|apply nth_error_None in Ex; lia].
    destruct (GA _ _ (NthG _ _ Ex)) as (A1 & A2 & A3 & A4 & A5). replace (length F1 + (j - length F1)) with j in A4 by lia. rewrite A4. rewrite (AG x); auto. now apply nth_error_In in Ex. }
  { destruct BG as [->|(F2 & b0 & E2 & Nb)]; auto. right. exists (Z.of_nat (fst b0)). split; [|lia].
    apply GA. rewrite EG, E2, app_length. simpl. rewrite <- app_assoc. replace (length F2 + 1 - 1) with (length F2) by lia. rewrite nth_error_app2, Nat.sub_diag by lia. reflexivity. }
  { intros j w vs E. destruct (weigh_nth _ _ _ _ _ E) as (x & Ex & -> & ->). destruct (GA _ _ (NthG _ _ Ex)) as (A1 & A2 & A3 & A4 & so1 & A5 & A6 & A7). split; auto.
    split. { apply wt_pos'. apply nth_error_lt in Ex. lia. } exists so1. split; auto. }
  revert K1 K2 K3 K4 K5 K7 K8 K9 K10 K11 K12 K13 K14 K15 K16 K17 K18 K19. fields. intros.
  set (W := wsumL L) in *. set (o := Z.to_nat (fst (collapseNextQuantileOffset (collapse_even_low s) (Z.of_nat W)))) in *.
  exists s1, (snd (collapseNextQuantileOffset (collapse_even_low s) (Z.of_nat W))), (F1 ++ [(S l, pick (isort (massL L)) W (o - 1) (buffer_size s))]).
  split; [exact E1|]. split; [|split; [repeat split; auto|split; [exact K8|]]].
  2: { intros v. apply st_collapse; auto. }
  assert (HW : W = wt (nbuffers s - length F1) (S l)).
  { unfold W, L. replace (nbuffers s - length F1) with (length G2) by lia. rewrite (weigh_wsum G2 l AG). apply wsum_wt. }
  split.
  - destruct Sh. split; try congruence; rewrite ?K2, ?K3, ?K4; auto.
    + intros i c E. destruct (Nat.lt_trichotomy i (length F1)) as [H|[->|H]].
      * destruct (K18 i H) as (Q & _). rewrite Q in E. eauto.
      * rewrite K14 in E. injection E as <-. now rewrite map_length, pick_length.
      * assert (i < nbuffers s) by (apply nth_error_lt in E; lia). destruct (K19 i) as (vs & Ev & Lvs); [lia|]. rewrite Ev in E. injection E as <-. now rewrite map_length.
    + intros Lz i E. destruct (Nat.lt_trichotomy i (length F1)) as [H|[->|H]].
      * destruct (K18 i H) as (Q & _). rewrite Q in E. now apply (sh_alloc0 Lz i).
      * rewrite K14 in E. discriminate.
      * assert (i < nbuffers s) by (apply nth_error_lt in E; lia). destruct (K19 i) as (vs & Ev & Lvs); [lia|]. rewrite Ev in E. discriminate.
  - rewrite K6, app_length. simpl. lia.
  - rewrite K3, app_length. simpl. lia.
  - exact K7.
  - intros i b E. assert (Hi : i < length (F1 ++ [(S l, pick (isort (massL L)) W (o - 1) (buffer_size s))])) by (now apply nth_error_lt in E).
    rewrite app_length in Hi. simpl in Hi. unfold full_ok. rewrite K2, K3. destruct (Nat.eq_dec i (length F1)) as [->|N].
    + rewrite nth_error_app2, Nat.sub_diag in E by lia. injection E as <-. cbn [fst snd]. rewrite K14, K15, K16, K17, pick_length, <- HW.
      split; auto. split; auto. split; [|auto]. apply pick_sorted; [apply isort_sorted|]. rewrite isort_length.
      rewrite (massL_length L (buffer_size s)). 2: { intros b Hb. apply In_nth_error in Hb. destruct Hb as (j & Ej). destruct b as [w vs]. destruct (weigh_nth _ _ _ _ _ Ej) as (x & Ex & -> & ->). cbn. now destruct (GA _ _ (NthG _ _ Ex)) as (_ & A2 & _). }
      fold W. assert (HW2 : 2 <= W). { rewrite HW. replace (nbuffers s - length F1) with (length G2) by lia. destruct (length G2) as [|[|k]]; try lia. rewrite wt_S_S. pose proof (wt_pos k (S l)). pose proof (wt_pos (S k) l). lia. }
      pose proof (offset_range (collapse_even_low s) (Z.of_nat W) ltac:(lia)). fold o. destruct (buffer_size s) as [|k]; [lia|]. simpl. rewrite Nat.sub_0_r. unfold o. nia.
    + rewrite nth_error_app1 in E by lia. assert (Hi2 : i < length F1) by lia. destruct (K18 i Hi2) as (Q1 & Q2 & Q3 & Q4). rewrite Q1, Q2, Q3, Q4.
      assert (EGi : nth_error F i = Some b). { assert (E' : nth_error G i = Some b) by (rewrite EG, nth_error_app1 by lia; auto). unfold G in E'. rewrite nth_error_app1 in E' by lia. exact E'. }
      apply Fu. exact EGi.
  - apply mono_snoc. { rewrite EG in MG. now apply mono_app in MG. } intros x Hx. cbn. auto.
Qed.

Theorem add_spec s F P v : Rep s F P -> (q_count s < 10 ^ 14)%Z ->
  exists s' e' F' P', addQuantile s v = Ok s' /\ astep (nbuffers s) (buffer_size s) (collapse_even_low s) F P v e' F' P'
    /\ RepF s' F' P' /\ P' <> [] /\ same s s' /\ collapse_even_low s' = e'.
Proof.
  intros R Cnt. rewrite addQuantile_unfold. destruct R as [[R NE]|((Sh & C & Ps) & -> & ->)].
  - destruct R as [Sh C Lt Ps Le Fu Mo Bu Wt Lv So] eqn:ER. rewrite Ps. destruct (Nat.eq_dec (length P) (buffer_size s)) as [Full|Room].
    + replace (buffer_size s <=? length P) with true by lia.
      assert (HN := sh_nb _ Sh). destruct (Nat.eq_dec (S (length F)) (nbuffers s)) as [Last|Free].
      * destruct (advance_collapse s F P R Full Last Cnt) as (s1 & e1 & F' & E1 & O1 & S1 & Ev1 & St).
        rewrite E1. cbn [bind]. destruct (fresh_spec s1 F' v O1) as (s' & E' & R' & S' & Ev').
        exists s', e1, F', [v]. split; [exact E'|]. split; auto. split; auto. split; [discriminate|]. split; [eapply same_trans; eauto|congruence].
      * destruct (advance_next s F P R Full) as (s1 & E1 & O1 & S1 & Ev1); [lia|].
        rewrite E1. cbn [bind]. destruct (fresh_spec s1 _ v O1) as (s' & E' & R' & S' & Ev').
        exists s', (collapse_even_low s), (F ++ [(0, isort P)]), [v]. split; [exact E'|]. split. { apply st_next; auto. lia. } split; auto. split; [discriminate|]. split; [eapply same_trans; eauto|congruence].
    + replace (buffer_size s <=? length P) with false by lia. cbn [bind]. destruct (write_spec s F P v R) as (s' & E' & R' & S' & Ev'); [lia|].
      exists s', (collapse_even_low s), F, (P ++ [v]). split; auto. split. { apply st_append. lia. } split; auto. split; [now destruct P|]. auto.
  - rewrite Ps. replace (buffer_size s <=? S (buffer_size s)) with true by lia. unfold advance. fields. rewrite C. assert (HN := sh_nb _ Sh).
    replace (-1 + 1 =? Z.of_nat (nbuffers s))%Z with false by lia. cbn [bind Z.ltb Z.add Z.compare].
    destruct (fresh_spec (set_cur s 0 0) [] v) as (s' & E' & R' & S' & Ev').
    { split; fields; auto. { destruct Sh; split; fields; auto. } { simpl. lia. } { intros [|i] b E; discriminate. } { intros [|i] a b E; discriminate. } }
    exists s', (collapse_even_low s), [], [v]. split; [exact E'|]. split. { apply (st_append _ _ _ [] []). simpl. assert (H := sh_bs _ Sh). lia. }
    split; auto. split; [discriminate|]. split; auto.
Qed.
