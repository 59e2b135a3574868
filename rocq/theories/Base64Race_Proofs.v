(** Lemmas about decoding in several threads. *)
From Coq Require Import List ZArith Bool Lia.
From Verif Require Import Common CommonFacts Base64_Spec Base64_Model Base64Race_Model.
Import ListNotations.
Local Open Scope Z_scope.

Lemma set_same {A} (f : nat -> A) i x : set f i x i = x.
Proof. unfold set. now rewrite Nat.eqb_refl. Qed.
Lemma set_other {A} (f : nat -> A) i x j : j <> i -> set f i x j = f j.
Proof. intros H. unfold set. destruct (Nat.eqb_spec j i); [now destruct H|reflexivity]. Qed.

(** Every entry of a table is uninitialised or right. *)
Definition sound (tb : list (option Z)) : Prop :=
  length tb = 256%nat /\ forall i v, nth_error tb i = Some (Some v) -> nth_error inverse_table i = Some (Some v).
(** The first [n] entries are filled in. *)
Definition filled (n : nat) (tb : list (option Z)) : Prop :=
  forall i, (i < n)%nat -> nth_error tb (Z.to_nat (translate (Z.of_nat i))) = Some (Some (Z.of_nat i)).

Lemma upd_length {A} (l : list A) i a : length (upd l i a) = length l.
Proof. revert i. induction l as [|x l IH]; intros [|i]; cbn; auto. Qed.
Lemma upd_nth {A} (l : list A) i a j : nth_error (upd l i a) j = if Nat.eqb j i then (if Nat.ltb i (length l) then Some a else None) else nth_error l j.
Proof.
  revert i j. induction l as [|x l IH]; intros i j; [cbn; destruct j; destruct (Nat.eqb _ i); reflexivity|].
  destruct i as [|i], j as [|j]; cbn [upd nth_error Nat.eqb length]; try reflexivity. rewrite IH. reflexivity.
Qed.
Lemma inverse_at : forall i, (i < 64)%nat -> nth_error inverse_table (Z.to_nat (translate (Z.of_nat i))) = Some (Some (Z.of_nat i)) /\ (Z.to_nat (translate (Z.of_nat i)) < 256)%nat.
Proof.
  intros i H.
  assert (X : forallb (fun i => match nth_error inverse_table (Z.to_nat (translate (Z.of_nat i))) with Some (Some v) => (v =? Z.of_nat i) && Nat.ltb (Z.to_nat (translate (Z.of_nat i))) 256 | _ => false end) (seq 0 64) = true) by (vm_compute; reflexivity).
  rewrite forallb_forall in X. specialize (X i). rewrite in_seq in X. specialize (X ltac:(lia)).
  destruct (nth_error inverse_table _) as [[v|]|]; try discriminate. apply andb_prop in X. destruct X as [X1 X2]. apply Z.eqb_eq in X1. apply Nat.ltb_lt in X2. now subst v.
Qed.
(** An entry of the final table is that of a digit. *)
Lemma inverse_only : forall c v, nth_error inverse_table c = Some (Some v) -> exists i, (i < 64)%nat /\ c = Z.to_nat (translate (Z.of_nat i)) /\ v = Z.of_nat i.
Proof.
  intros c v H.
  assert (X : forallb (fun c => match nth_error inverse_table c with Some (Some v) => (0 <=? v) && (v <? 64) && Nat.eqb c (Z.to_nat (translate v)) | _ => true end) (seq 0 256) = true) by (vm_compute; reflexivity).
  assert (LE : length inverse_table = 256%nat) by (vm_compute; reflexivity).
  assert (L : (c < 256)%nat). { rewrite <- LE. apply nth_error_Some. rewrite H. discriminate. }
  rewrite forallb_forall in X. specialize (X c). rewrite in_seq in X. specialize (X ltac:(lia)). rewrite H in X.
  apply andb_prop in X. destruct X as [X1 X2]. apply andb_prop in X1. destruct X1 as [X0 X1]. apply Nat.eqb_eq in X2.
  exists (Z.to_nat v). rewrite Z2Nat.id by lia. repeat split; [lia|exact X2].
Qed.
Lemma sound_upd : forall tb i, sound tb -> (i < 64)%nat -> sound (upd tb (Z.to_nat (translate (Z.of_nat i))) (Some (Z.of_nat i))).
Proof.
  intros tb i [L S] H. destruct (inverse_at i H) as [E B]. split; [now rewrite upd_length|]. intros j v. rewrite upd_nth, L.
  destruct (Nat.eqb_spec j (Z.to_nat (translate (Z.of_nat i)))) as [->|_]; [|apply S]. replace (Nat.ltb _ 256) with true by (symmetry; now apply Nat.ltb_lt).
  intros [= <-]. exact E.
Qed.
Lemma filled_upd : forall tb n i, sound tb -> (i < 64)%nat -> (n <= 64)%nat -> filled n tb -> filled n (upd tb (Z.to_nat (translate (Z.of_nat i))) (Some (Z.of_nat i))).
Proof.
  intros tb n i [L S] H N F j J. rewrite upd_nth, L. destruct (inverse_at i H) as [E B].
  destruct (Nat.eqb_spec (Z.to_nat (translate (Z.of_nat j))) (Z.to_nat (translate (Z.of_nat i)))) as [Q|_]; [|now apply F].
  replace (Nat.ltb _ 256) with true by (symmetry; now apply Nat.ltb_lt).
  destruct (inverse_at j ltac:(lia)) as [E' _]. rewrite Q in E'. congruence.
Qed.
Lemma filled_next : forall tb i, sound tb -> (i < 64)%nat -> filled i tb -> filled (S i) (upd tb (Z.to_nat (translate (Z.of_nat i))) (Some (Z.of_nat i))).
Proof.
  intros tb i S H F j J. destruct (Nat.eq_dec j i) as [->|N]; [|apply (filled_upd tb i i); auto; lia].
  rewrite upd_nth, Nat.eqb_refl. destruct S as [L S], (inverse_at i H) as [E B]. rewrite L. now replace (Nat.ltb _ 256) with true by (symmetry; now apply Nat.ltb_lt).
Qed.
Lemma lookup_sound : forall tb c, sound tb -> lookup tb c = detranslate c \/ lookup tb c = UB.
Proof.
  intros tb c [L S]. unfold lookup, detranslate. destruct (128 <=? c); [now left|]. specialize (S (Z.to_nat c)).
  destruct (nth_error tb (Z.to_nat c)) as [[v|]|]; try (now right). left. now rewrite (S v eq_refl).
Qed.
Lemma lookup_filled : forall tb c, sound tb -> filled 64 tb -> lookup tb c = detranslate c.
Proof.
  intros tb c [L S] F. unfold lookup, detranslate. destruct (128 <=? c); [reflexivity|]. specialize (S (Z.to_nat c)).
  destruct (nth_error inverse_table (Z.to_nat c)) as [[w|]|] eqn:E.
  - destruct (inverse_only _ _ E) as (i & I & Ei & ->). rewrite Ei. now rewrite (F i I).
  - destruct (nth_error tb (Z.to_nat c)) as [[v|]|]; try reflexivity. discriminate (S v eq_refl).
  - destruct (nth_error tb (Z.to_nat c)) as [[v|]|]; try reflexivity. discriminate (S v eq_refl).
Qed.
Lemma sound_empty : sound (repeat None 256).
Proof.
  split; [apply repeat_length|]. intros i v H. assert (In (Some v) (repeat (@None Z) 256)) as I by (eapply nth_error_In; exact H).
  apply repeat_spec in I. discriminate.
Qed.

(** What a thread in the loop still has to produce. *)
Definition prepend (acc : list Z) (r : res (list Z)) : res (list Z) := match r with Ok l => Ok (rev acc ++ l) | Abort => Abort | UB => UB | Fuel => Fuel end.
(** The invariant of all runs. *)
Definition pc_ok (s : state) (p : pc) : Prop :=
  match p with
  | Idle | Check _ | New _ => True
  | Fill _ i => inverse s <> None /\ (i < 64)%nat
  | Return _ => inverse s <> None
  | Loop tb d rest k trans_buf bits acc => inverse s <> None /\ (tb < length (tables s))%nat /\ prepend acc (decode_loop rest k trans_buf bits) = decode d
  end.
Definition Inv (s : state) : Prop :=
  Forall sound (tables s) /\ (forall p, inverse s = Some p -> (p < length (tables s))%nat) /\ forall t, pc_ok s (pcs s t).
Lemma inv_init : Inv init.
Proof. split; [constructor|]. split; [discriminate|]. intros t. exact I. Qed.
Lemma pc_ok_mono : forall s s' p, (inverse s <> None -> inverse s' <> None) -> (length (tables s) <= length (tables s'))%nat -> pc_ok s p -> pc_ok s' p.
Proof.
  intros s s' p A B. destruct p; cbn [pc_ok]; auto.
  - intros [H1 H2]; auto.
  - intros (H0 & H1 & H2). split; [auto|]. split; [lia|exact H2].
Qed.
Lemma pcs_ok : forall s s' t p, (inverse s <> None -> inverse s' <> None) -> (length (tables s) <= length (tables s'))%nat ->
  pcs s' = set (pcs s) t p -> (forall u, pc_ok s (pcs s u)) -> pc_ok s' p -> forall u, pc_ok s' (pcs s' u).
Proof.
  intros s s' t p A B E H P u. rewrite E. destruct (Nat.eq_dec u t) as [->|N]; [now rewrite set_same|]. rewrite set_other by exact N.
  eapply pc_ok_mono; [exact A|exact B|apply H].
Qed.
Lemma nth_sound : forall tbs p, Forall sound tbs -> (p < length tbs)%nat -> sound (nth p tbs []).
Proof. intros tbs p F L. eapply Forall_forall; [exact F|]. now apply nth_In. Qed.
Lemma Forall_upd {A} (P : A -> Prop) l i a : Forall P l -> P a -> Forall P (upd l i a).
Proof. intros F H. revert i. induction F as [|x l Hx F IH]; intros i; [constructor|]. destruct i; cbn; constructor; auto. Qed.
(** A result that is right, or undefined. *)
Definition right_or_undefined (e : event) : Prop := let 'EDecode _ d r := e in r = decode d \/ r = UB.
Lemma inv_step : forall t d s s' ev, Inv s -> step t d s = (s', ev) -> Inv s' /\ Forall right_or_undefined ev.
Proof.
  intros t d s s' ev (S & P & H) E. pose proof (H t) as Ht. unfold step in E. destruct (pcs s t) as [|d0|d0|d0 i|d0|tb d0 rest k tbuf bits acc] eqn:Et; cbn [pc_ok] in Ht.
  - injection E as <- <-. split; [|constructor]. split; [exact S|]. split; [exact P|]. apply (pcs_ok s (at_pc s t (Check d)) t (Check d)); [auto|auto|reflexivity|exact H|exact I].
  - injection E as <- <-. split; [|constructor]. split; [exact S|]. split; [exact P|].
    eapply (pcs_ok s (at_pc s t _) t _); [auto|auto|reflexivity|exact H|]. destruct (inverse s) eqn:Ei; cbn; [rewrite Ei; discriminate|exact I].
  - injection E as <- <-. split; [|constructor]. split; [cbn [tables]; apply Forall_app; split; [exact S|repeat constructor; apply sound_empty]|].
    split; [cbn [inverse tables]; intros p [= <-]; rewrite app_length; cbn; lia|].
    eapply (pcs_ok s (mk_state _ _ _) t _); [discriminate|cbn [tables]; rewrite app_length; lia|reflexivity|exact H|]. cbn. split; [discriminate|lia].
  - destruct Ht as [Hn Hi]. destruct (inverse s) as [p|] eqn:Ei in E; [|exfalso; apply Hn; exact Ei]. injection E as <- <-. split; [|constructor].
    assert (L : (p < length (tables s))%nat) by now apply P.
    split; [cbn [tables]; apply Forall_upd; [exact S|]; apply sound_upd; [now apply nth_sound|exact Hi]|].
    split; [cbn [inverse tables]; intros q [= <-]; rewrite upd_length; exact L|].
    eapply (pcs_ok s (mk_state _ _ _) t _); [discriminate|cbn [tables]; rewrite upd_length; lia|reflexivity|exact H|].
    destruct (Nat.eqb_spec i 63); cbn; [discriminate|]. split; [discriminate|lia].
  - destruct (inverse s) as [p|] eqn:Ei in E; [|exfalso; apply Ht; exact Ei]. destruct (s32 (Z.of_nat (length d0) * 6 / 8) <? 0) eqn:Es; injection E as <- <-.
    + split; [|constructor; [|constructor]; left; unfold decode; now rewrite Es].
      split; [exact S|]. split; [exact P|]. eapply (pcs_ok s (at_pc s t _) t _); [auto|auto|reflexivity|exact H|exact I].
    + split; [|constructor]. split; [exact S|]. split; [exact P|]. eapply (pcs_ok s (at_pc s t _) t _); [auto|auto|reflexivity|exact H|].
      cbn [pc_ok at_pc tables inverse]. split; [now rewrite Ei|]. split; [now apply P|]. unfold decode. rewrite Es. destruct (decode_loop _ _ _ _); reflexivity.
  - destruct Ht as (H0 & Hl & Hd).
    assert (Go : forall p, pc_ok s p -> Inv (at_pc s t p)).
    { intros p Hp. split; [exact S|]. split; [exact P|]. eapply (pcs_ok s (at_pc s t _) t _); [auto|auto|reflexivity|exact H|exact Hp]. }
    destruct rest as [|c r]; [|destruct k as [|k']].
    + injection E as <- <-. split; [apply Go; exact I|]. constructor; [|constructor]. left. rewrite <- Hd. destruct k; reflexivity.
    + injection E as <- <-. split; [apply Go; exact I|]. constructor; [|constructor]. left. rewrite <- Hd. cbn. now rewrite app_nil_r.
    + destruct (lookup_sound (nth tb (tables s) []) c) as [Q|Q]; [now apply nth_sound| |].
      * cbn [decode_loop] in Hd. rewrite Q in E. destruct (detranslate c) as [v| | |] eqn:Ed.
        -- cbv zeta in E. cbn [bind] in Hd. cbv zeta in Hd. destruct (8 <=? bits + 6); injection E as <- <-; (split; [|constructor]); apply Go; (split; [exact H0|split; [exact Hl|]]); [|exact Hd].
           rewrite <- Hd. cbn [rev]. destruct (decode_loop r k' _ _); cbn; try reflexivity. now rewrite <- app_assoc.
        -- injection E as <- <-. split; [apply Go; exact I|]. constructor; [now right|constructor].
        -- injection E as <- <-. split; [apply Go; exact I|]. constructor; [now right|constructor].
        -- injection E as <- <-. split; [apply Go; exact I|]. constructor; [now right|constructor].
      * rewrite Q in E. injection E as <- <-. split; [apply Go; exact I|]. constructor; [now right|constructor].
Qed.
Lemma inv_run : forall sch s s' ev, Inv s -> run sch s = (s', ev) -> Inv s' /\ Forall right_or_undefined ev.
Proof.
  induction sch as [|[t d] sch IH]; intros s s' ev H E; [injection E as <- <-; split; [exact H|constructor]|]. cbn [run] in E.
  destruct (step t d s) as [s1 e1] eqn:E1. destruct (run sch s1) as [s2 e2] eqn:E2. injection E as <- <-.
  destruct (inv_step _ _ _ _ _ H E1) as [I1 F1]. destruct (IH _ _ _ I1 E2) as [I2 F2]. split; [exact I2|]. apply Forall_app. now split.
Qed.

(** Once the current table is complete and nobody is about to allocate another. *)
Definition settled (p : nat) (q : pc) : Prop :=
  match q with Idle | Check _ | Return _ | Fill _ _ => True | New _ => False | Loop tb _ _ _ _ _ _ => tb = p end.
Definition Done (s : state) : Prop :=
  Inv s /\ exists p, inverse s = Some p /\ filled 64 (nth p (tables s) []) /\ forall t, settled p (pcs s t).
Definition right (e : event) : Prop := let 'EDecode _ d r := e in r = decode d.
Lemma nth_upd {A} (l : list A) i a j x : (i < length l)%nat -> nth j (upd l i a) x = if Nat.eqb j i then a else nth j l x.
Proof.
  revert i j. induction l as [|y l IH]; intros [|i] [|j] H; cbn in *; try lia; auto. apply IH. lia.
Qed.
Lemma done_step : forall t d s s' ev, Done s -> step t d s = (s', ev) -> Done s' /\ Forall right ev.
Proof.
  intros t d s s' ev (HI & p & Hp & F & Q) E. destruct (inv_step _ _ _ _ _ HI E) as [HI' RU]. destruct HI as (S & P & H).
  pose proof (Q t) as Qt. pose proof (H t) as Ht. assert (L := P _ Hp). unfold step in E.
  assert (Go : forall q, settled p q -> Inv (at_pc s t q) -> Done (at_pc s t q)).
  { intros q Sq Iq. split; [exact Iq|]. exists p. split; [exact Hp|]. split; [exact F|]. intros u. cbn [pcs at_pc].
    destruct (Nat.eq_dec u t) as [->|N]; [now rewrite set_same|]. rewrite set_other by exact N. apply Q. }
  destruct (pcs s t) as [|d0|d0|d0 i|d0|tb d0 rest k tbuf bits acc] eqn:Et; cbn [settled pc_ok] in Qt, Ht.
  - injection E as <- <-. split; [apply Go; [exact I|exact HI']|constructor].
  - rewrite Hp in E. injection E as <- <-. split; [apply Go; [exact I|exact HI']|constructor].
  - destruct Qt.
  - rewrite Hp in E. injection E as <- <-. split; [|constructor]. split; [exact HI'|]. exists p. split; [reflexivity|]. cbn [tables pcs].
    split; [rewrite nth_upd, Nat.eqb_refl by exact L; apply filled_upd; [now apply nth_sound|now destruct Ht|lia|exact F]|].
    intros u. destruct (Nat.eq_dec u t) as [->|N]; [rewrite set_same; destruct (Nat.eqb i 63); exact I|]. rewrite set_other by exact N. apply Q.
  - rewrite Hp in E. destruct (s32 (Z.of_nat (length d0) * 6 / 8) <? 0) eqn:Es; injection E as <- <-.
    + split; [apply Go; [exact I|exact HI']|]. constructor; [|constructor]. cbn. unfold decode. now rewrite Es.
    + split; [apply Go; [reflexivity|exact HI']|constructor].
  - subst tb. destruct Ht as (_ & _ & Hd). destruct rest as [|c r]; [|destruct k as [|k']].
    + injection E as <- <-. split; [apply Go; [exact I|exact HI']|]. constructor; [|constructor]. cbn. rewrite <- Hd. destruct k; reflexivity.
    + injection E as <- <-. split; [apply Go; [exact I|exact HI']|]. constructor; [|constructor]. cbn. rewrite <- Hd. cbn. now rewrite app_nil_r.
    + cbn [decode_loop] in Hd. rewrite (lookup_filled _ c (nth_sound _ _ S L) F) in E.
      assert (U : forall x, detranslate c = x -> x <> Abort /\ x <> Fuel).
      { intros x <-. unfold detranslate. destruct (128 <=? c); [split; discriminate|]. destruct (nth_error inverse_table (Z.to_nat c)) as [[v|]|]; split; discriminate. }
      destruct (detranslate c) as [v| | |] eqn:Ed.
      * cbv zeta in E. destruct (8 <=? bits + 6); injection E as <- <-; (split; [|constructor]); (apply Go; [reflexivity|exact HI']).
      * destruct (U Abort eq_refl) as [X _]. now destruct X.
      * injection E as <- <-. split; [apply Go; [exact I|exact HI']|]. constructor; [|constructor]. cbn. rewrite <- Hd. reflexivity.
      * destruct (U Fuel eq_refl) as [_ X]. now destruct X.
Qed.
Lemma done_run : forall sch s s' ev, Done s -> run sch s = (s', ev) -> Done s' /\ Forall right ev.
Proof.
  induction sch as [|[t d] sch IH]; intros s s' ev H E; [injection E as <- <-; split; [exact H|constructor]|]. cbn [run] in E.
  destruct (step t d s) as [s1 e1] eqn:E1. destruct (run sch s1) as [s2 e2] eqn:E2. injection E as <- <-.
  destruct (done_step _ _ _ _ _ H E1) as [I1 F1]. destruct (IH _ _ _ I1 E2) as [I2 F2]. split; [exact I2|]. apply Forall_app. now split.
Qed.

(** While a table is being made, one of the threads that fill it in started with it. *)
Definition Making (s : state) : Prop :=
  forall p, inverse s = Some p -> filled 64 (nth p (tables s) []) \/ exists t d i, pcs s t = Fill d i /\ filled i (nth p (tables s) []).
Lemma making_at : forall s t q, Making s -> (forall d i, pcs s t <> Fill d i) -> Making (at_pc s t q).
Proof.
  intros s t q M N p Hp. destruct (M p Hp) as [F|(u & d & i & E & F)]; [now left|]. right. exists u, d, i. split; [|exact F]. cbn [pcs at_pc].
  rewrite set_other; [exact E|]. intros ->. now apply (N d i).
Qed.
Lemma making_step : forall t d s s' ev, Inv s -> Making s -> step t d s = (s', ev) -> Making s'.
Proof.
  intros t d s s' ev (S & P & H) M E. pose proof (H t) as Ht. unfold step in E.
  destruct (pcs s t) as [|d0|d0|d0 i|d0|tb d0 rest k tbuf bits acc] eqn:Et; cbn [pc_ok] in Ht.
  - injection E as <- <-. apply making_at; [exact M|]. rewrite Et. discriminate.
  - injection E as <- <-. apply making_at; [exact M|]. rewrite Et. discriminate.
  - injection E as <- <-. intros p [= <-]. right. exists t, d0, 0%nat. cbn [pcs]. rewrite set_same. split; [reflexivity|]. intros j J. lia.
  - destruct Ht as [Hn Hi]. destruct (inverse s) as [p|] eqn:Ei; [|now destruct Hn]. injection E as <- <-. intros q Q. cbn [inverse] in Q. injection Q as <-.
    assert (L : (p < length (tables s))%nat) by now apply P. cbn [tables pcs]. rewrite nth_upd, Nat.eqb_refl by exact L. pose proof (nth_sound _ _ S L) as Sp.
    destruct (M p Ei) as [F|(u & d1 & j & Eu & F)]; [left; apply filled_upd; auto|].
    destruct (Nat.eq_dec u t) as [->|N].
    + rewrite Et in Eu. injection Eu as <- <-. pose proof (filled_next _ _ Sp Hi F) as F'. destruct (Nat.eqb_spec i 63) as [->|N]; [now left|].
      right. exists t, d0, (Datatypes.S i). rewrite set_same. now split.
    + right. exists u, d1, j. rewrite set_other by exact N. split; [exact Eu|]. pose proof (H u) as Hu. rewrite Eu in Hu. destruct Hu as [_ Hj]. apply filled_upd; auto. lia.
  - destruct (inverse s) as [p|] eqn:Ei; [|now destruct Ht]. destruct (s32 (Z.of_nat (length d0) * 6 / 8) <? 0); injection E as <- <-; (apply making_at; [exact M|rewrite Et; discriminate]).
  - assert (G : forall q, Making (at_pc s t q)) by (intros q; apply making_at; [exact M|rewrite Et; discriminate]).
    destruct rest as [|c r]; [injection E as <- <-; apply G|]. destruct k as [|k']; [injection E as <- <-; apply G|].
    destruct (lookup _ c) as [v| | |]; try (injection E as <- <-; apply G). cbv zeta in E. destruct (8 <=? bits + 6); injection E as <- <-; apply G.
Qed.
Lemma making_run : forall sch s s' ev, Inv s -> Making s -> run sch s = (s', ev) -> Making s'.
Proof.
  induction sch as [|[t d] sch IH]; intros s s' ev H M E; [injection E as <- <-; exact M|]. cbn [run] in E.
  destruct (step t d s) as [s1 e1] eqn:E1. destruct (run sch s1) as [s2 e2] eqn:E2. injection E as <- <-.
  destruct (inv_step _ _ _ _ _ H E1) as [I1 _]. eapply IH; [exact I1| |exact E2]. exact (making_step _ _ _ _ _ H M E1).
Qed.
(** The pointer is set once a call has returned, and stays set. *)
Lemma set_step : forall t d s s' ev, Inv s -> step t d s = (s', ev) -> (inverse s <> None \/ ev <> []) -> inverse s' <> None.
Proof.
  intros t d s s' ev (S & P & H) E [N|N]; pose proof (H t) as Ht; unfold step in E;
    (destruct (pcs s t) as [|d0|d0|d0 i|d0|tb d0 rest k tbuf bits acc]; cbn [pc_ok] in Ht);
    try (injection E as <- <-; first [exact N|discriminate|now destruct N]).
  - destruct (inverse s); [|now destruct N]. injection E as <- <-. discriminate.
  - destruct (inverse s) eqn:Ei; [|now destruct N]. destruct (_ <? 0); injection E as <- <-; cbn; rewrite Ei; discriminate.
  - destruct rest as [|c r]; [injection E as <- <-; exact N|]. destruct k as [|k']; [injection E as <- <-; exact N|].
    destruct (lookup _ c) as [v| | |]; try (injection E as <- <-; exact N). cbv zeta in E. destruct (8 <=? bits + 6); injection E as <- <-; exact N.
  - destruct (inverse s); [|now destruct Ht]. injection E as <- <-. discriminate.
  - destruct (inverse s) eqn:Ei; [|now destruct Ht]. destruct (_ <? 0); injection E as <- <-; cbn; rewrite Ei; discriminate.
  - destruct Ht as (Hn & _). destruct rest as [|c r]; [injection E as <- <-; exact Hn|]. destruct k as [|k']; [injection E as <- <-; exact Hn|].
    destruct (lookup _ c) as [v| | |]; try (injection E as <- <-; exact Hn). cbv zeta in E. destruct (8 <=? bits + 6); injection E as <- <-; exact Hn.
Qed.
Lemma set_run : forall sch s s' ev, Inv s -> run sch s = (s', ev) -> (inverse s <> None \/ ev <> []) -> inverse s' <> None.
Proof.
  induction sch as [|[t d] sch IH]; intros s s' ev H E N; [injection E as <- <-; destruct N as [N|N]; [exact N|now destruct N]|]. cbn [run] in E.
  destruct (step t d s) as [s1 e1] eqn:E1. destruct (run sch s1) as [s2 e2] eqn:E2. injection E as <- <-.
  destruct (inv_step _ _ _ _ _ H E1) as [I1 _]. apply (IH s1 s2 e2 I1 E2).
  destruct N as [N|N]; [left; eapply set_step; [exact H|exact E1|now left]|].
  destruct e1 as [|x e1]; [right; exact N|]. left. eapply set_step; [exact H|exact E1|right; discriminate].
Qed.
Lemma quiet_done : forall s, Inv s -> Making s -> inverse s <> None -> (forall t, pcs s t = Idle) -> Done s.
Proof.
  intros s HI M N Q. split; [exact HI|]. destruct (inverse s) as [p|] eqn:Ei; [|now destruct N]. exists p. split; [reflexivity|].
  split; [|intros t; rewrite Q; exact I]. destruct (M p Ei) as [F|(t & d & i & E & _)]; [exact F|]. rewrite Q in E. discriminate.
Qed.
(** One thread on its own. *)
Definition Alone (t : tid) (s : state) : Prop :=
  Inv s /\ (forall u, u <> t -> pcs s u = Idle) /\
  match inverse s with
  | None => match pcs s t with Idle | Check _ | New _ => True | _ => False end
  | Some p => (exists d i, pcs s t = Fill d i /\ filled i (nth p (tables s) [])) \/ Done s
  end.
Lemma alone_step : forall t d s s' ev, Alone t s -> step t d s = (s', ev) -> Alone t s' /\ Forall right ev.
Proof.
  intros t d s s' ev (HI & O & A) E. pose proof (inv_step _ _ _ _ _ HI E) as [HI' _].
  assert (O' : forall u, u <> t -> pcs s' u = Idle).
  { intros u N. rewrite <- (O u N). clear - E N. unfold step in E.
    destruct (pcs s t) as [|d0|d0|d0 i|d0|tb d0 rest k tbuf bits acc]; try (injection E as <- <-; apply set_other; exact N).
    - destruct (inverse s); injection E as <- <-; apply set_other; exact N.
    - destruct (inverse s); [destruct (_ <? 0)|]; injection E as <- <-; apply set_other; exact N.
    - destruct rest; [injection E as <- <-; apply set_other; exact N|]. destruct k; [injection E as <- <-; apply set_other; exact N|].
      destruct (lookup _ _); try (injection E as <- <-; apply set_other; exact N). cbv zeta in E. destruct (8 <=? bits + 6); injection E as <- <-; apply set_other; exact N. }
  destruct (inverse s) as [p|] eqn:Ei.
  - destruct A as [(d0 & i & Et & F)|D].
    + unfold step in E. rewrite Et, Ei in E. injection E as <- <-. split; [|constructor]. split; [exact HI'|]. split; [exact O'|]. cbn [inverse].
      destruct HI as (S & P & H). pose proof (H t) as Ht. rewrite Et in Ht. destruct Ht as [_ Hi]. assert (L : (p < length (tables s))%nat) by now apply P.
      pose proof (filled_next _ _ (nth_sound _ _ S L) Hi F) as F'. destruct (Nat.eqb_spec i 63) as [->|N].
      * right. split; [exact HI'|]. exists p. split; [reflexivity|]. cbn [tables pcs]. rewrite nth_upd, Nat.eqb_refl by exact L. split; [exact F'|].
        intros u. destruct (Nat.eq_dec u t) as [->|Nu]; [rewrite set_same; exact I|]. rewrite set_other by exact Nu. rewrite (O u Nu). exact I.
      * left. exists d0, (Datatypes.S i). cbn [tables pcs]. rewrite set_same, nth_upd, Nat.eqb_refl by exact L. now split.
    + destruct (done_step _ _ _ _ _ D E) as [D' R]. split; [|exact R]. split; [exact HI'|]. split; [exact O'|]. pose proof D' as (_ & q & Eq & _). rewrite Eq. now right.
  - unfold step in E. destruct (pcs s t) as [|d0|d0|d0 i|d0|tb d0 rest k tbuf bits acc]; try (now destruct A).
    + injection E as <- <-. split; [|constructor]. split; [exact HI'|]. split; [exact O'|]. cbn. rewrite Ei, set_same. exact I.
    + rewrite Ei in E. injection E as <- <-. split; [|constructor]. split; [exact HI'|]. split; [exact O'|]. cbn. rewrite Ei, set_same. exact I.
    + injection E as <- <-. split; [|constructor]. split; [exact HI'|]. split; [exact O'|]. cbn. left. exists d0, 0%nat. rewrite set_same. split; [reflexivity|]. intros j J. lia.
Qed.
Lemma alone_run : forall t sch s s' ev, Alone t s -> Forall (fun x => fst x = t) sch -> run sch s = (s', ev) -> Alone t s' /\ Forall right ev.
Proof.
  intros t. induction sch as [|[u d] sch IH]; intros s s' ev H T E; [injection E as <- <-; split; [exact H|constructor]|]. cbn [run] in E.
  inversion T as [|x y Hx Ty]. subst. cbn [fst] in *.
  destruct (step u d s) as [s1 e1] eqn:E1. destruct (run sch s1) as [s2 e2] eqn:E2. injection E as <- <-.
  destruct (alone_step _ _ _ _ _ H E1) as [A1 R1]. destruct (IH _ _ _ A1 Ty E2) as [A2 R2]. split; [exact A2|]. apply Forall_app. now split.
Qed.
Lemma run_app : forall a b s, run (a ++ b) s = let '(s1, e1) := run a s in let '(s2, e2) := run b s1 in (s2, e1 ++ e2).
Proof.
  induction a as [|[t d] a IH]; intros b s; cbn [run app]; [now destruct (run b s)|]. destruct (step t d s) as [s1 e1]. rewrite IH.
  destruct (run a s1) as [s2 e2]. destruct (run b s2) as [s3 e3]. now rewrite app_assoc.
Qed.
Lemma alone_event : forall t d s s' ev, Alone t s -> step t d s = (s', ev) -> ev <> [] -> Done s'.
Proof.
  intros t d s s' ev (HI & O & A) E N. destruct (inverse s) as [p|] eqn:Ei.
  - destruct A as [(d0 & i & Et & F)|D]; [|eapply done_step; eassumption]. unfold step in E. rewrite Et, Ei in E. injection E as <- <-. now destruct N.
  - unfold step in E. destruct (pcs s t); try (now destruct A); rewrite ?Ei in E; injection E as <- <-; now destruct N.
Qed.
Lemma alone_done : forall t sch s s' ev, Alone t s -> Forall (fun x => fst x = t) sch -> run sch s = (s', ev) -> ev <> [] -> Done s'.
Proof.
  intros t. induction sch as [|[u d] sch IH]; intros s s' ev H T E N; [injection E as <- <-; now destruct N|]. cbn [run] in E.
  inversion T as [|x y Hx Ty]. subst. cbn [fst] in *.
  destruct (step u d s) as [s1 e1] eqn:E1. destruct (run sch s1) as [s2 e2] eqn:E2. injection E as <- <-.
  destruct e1 as [|x e1]; [eapply IH; [eapply alone_step; eassumption|exact Ty|exact E2|exact N]|].
  eapply done_run; [|exact E2]. eapply alone_event; [exact H|exact E1|discriminate].
Qed.
Lemma alone_init : forall t, Alone t init.
Proof. intros t. split; [apply inv_init|]. split; [reflexivity|exact I]. Qed.
