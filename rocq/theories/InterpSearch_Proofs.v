From Coq Require Import List Arith Bool Lia ZifyBool ZifyNat.
From Verif Require Import Common CommonFacts ListFacts InterpSearch_Spec InterpSearch_Model.
Import ListNotations.

Section proofs.
Context {A : Type}.
Variable less : A -> A -> bool.
Variable estimator : A -> A -> A -> nat -> res nat.
Variables is bs below : nat.
Variable l : list A.
Variable v : A.
Variable p : nat.
Hypothesis Hp : lower_bound_at less l v p.
Hypothesis Hest : forall first last last_pos, In first l -> In last l -> less first v = true -> less last v = false ->
  last_pos < length l -> exists n, estimator v first last last_pos = Ok n /\ n <= last_pos.

Lemma get_at : forall i, i < length l -> exists x, get l i = Ok x /\ In x l /\ less x v = (i <? p).
Proof.
  intros i L. destruct (nth_error l i) as [x|] eqn:E; [|apply nth_error_None in E; lia].
  exists x. split; [unfold get; now rewrite E|]. split; [eapply nth_error_In; eauto|].
  destruct Hp as (_ & H1 & H2). destruct (i <? p) eqn:C; [eapply H1|eapply H2]; eauto; lia.
Qed.
Lemma lt_at_ok : forall i, i < length l -> lt_at less l v i = Ok (i <? p).
Proof. intros i L. unfold lt_at. destruct (get_at i L) as (x & -> & _ & E). cbn. now rewrite E. Qed.

Lemma div2_lt : forall n, 0 < n -> Nat.div2 n < n.
Proof. intros. apply Nat.lt_div2. lia. Qed.

Lemma interpolate_ok : forall steps b e len, b < p < e -> b + len = e -> e <= length l ->
  exists x, interpolate less estimator l v steps b e len = Ok x
    /\ match x with Return i => i = p
       | Go b' e' len' => b' < p < e' /\ b' + len' = e' /\ e' <= length l /\ len' <= len /\ (0 < steps -> len' < len) end.
Proof.
  induction steps as [|steps IH]; intros b e len B L E; cbn [interpolate].
  - eexists. split; [reflexivity|]. cbv beta iota. repeat split; lia.
  - replace (0 <? len) with true by lia.
    destruct (get_at b ltac:(lia)) as (x & -> & Ix & Lx). cbn [bind]. destruct e as [|e]; [lia|]. cbn [before bind].
    destruct (get_at e ltac:(lia)) as (y & -> & Iy & Ly). cbn [bind].
    destruct (Hest x y (len - 1) Ix Iy) as (k & -> & Hk); [rewrite Lx; lia|rewrite Ly; lia|lia|]. cbn [bind].
    rewrite lt_at_ok by lia. cbn [bind]. destruct (b + k <? p) eqn:C.
    + rewrite lt_at_ok by lia. cbn [bind]. destruct (b + k + 1 <? p) eqn:C1; cbn [negb].
      * destruct (IH (b + k + 1) (S e) (len - (k + 1))) as (z & Ez & Hz); [lia|lia|lia|]. exists z. split; [exact Ez|].
        destruct z; [exact Hz|]. destruct Hz as (? & ? & ? & ? & ?). repeat split; lia.
      * eexists. split; [reflexivity|]. cbv beta iota. lia.
    + destruct (b + k) as [|q] eqn:Q; [lia|]. cbn [before bind]. rewrite lt_at_ok by lia. cbn [bind].
      destruct (q <? p) eqn:C1.
      * eexists. split; [reflexivity|]. cbv beta iota. lia.
      * destruct (IH b (S q) k) as (z & Ez & Hz); [lia|lia|lia|]. exists z. split; [exact Ez|].
        destruct z; [exact Hz|]. destruct Hz as (? & ? & ? & ? & ?). repeat split; lia.
Qed.

Lemma bisect_ok : forall steps b e len (ab ae : bool), b <= p <= e -> b + len = e -> e <= length l ->
  (ab = false -> b < p) -> (if ae then e < length l else p < e) ->
  exists b' e' len' ab' ae', bisect less l v steps b e len ab ae = Ok (b', e', len', ab', ae')
    /\ b' <= p <= e' /\ b' + len' = e' /\ e' <= length l /\ (ab' = false -> b' < p) /\ (if ae' then e' < length l else p < e')
    /\ len' <= len /\ (0 < steps -> 0 < len -> len' < len).
Proof.
  induction steps as [|steps IH]; intros b e len ab ae B L E Hab Hae; cbn [bisect].
  - repeat eexists; auto; lia.
  - destruct (0 <? len) eqn:Z; [|repeat eexists; auto; lia].
    pose proof (div2_lt len ltac:(lia)) as D. set (k := Nat.div2 len) in *.
    rewrite lt_at_ok by lia. cbn [bind]. destruct (b + k <? p) eqn:C.
    + destruct (IH (b + k + 1) e (len - (k + 1)) true ae) as (b' & e' & len' & ab' & ae' & Q & R1 & R2 & R3 & R4 & R5 & R6 & R7);
        try lia; try assumption; try discriminate.
      exists b', e', len', ab', ae'. repeat split; try assumption; lia.
    + destruct (IH b (b + k) k ab true) as (b' & e' & len' & ab' & ae' & Q & R1 & R2 & R3 & R4 & R5 & R6 & R7);
        try lia; try assumption.
      exists b', e', len', ab', ae'. repeat split; try assumption; lia.
Qed.

Lemma std_lower_bound_ok : forall fuel b len, b <= p <= b + len -> b + len <= length l -> len <= fuel ->
  std_lower_bound less l v fuel b len = Ok p.
Proof.
  induction fuel as [|f IH]; intros b len B E F; cbn [std_lower_bound].
  - replace (0 <? len) with false by lia. f_equal. lia.
  - destruct (0 <? len) eqn:Z; [|f_equal; lia]. pose proof (div2_lt len ltac:(lia)) as D. set (k := Nat.div2 len) in *.
    rewrite lt_at_ok by lia. cbn [bind]. destruct (b + k <? p) eqn:C; apply IH; lia.
Qed.

Lemma search_ok : forall fuel b e len, b < p < e -> b + len = e -> e <= length l -> len <= fuel ->
  (0 < is \/ 0 < bs \/ len <= below) ->
  search less estimator is bs below l v fuel b e len = Ok p.
Proof.
  induction fuel as [|f IH]; intros b e len B L E F St; cbn [search]; [lia|].
  replace (0 <? len) with true by lia.
  destruct (interpolate_ok is b e len B L E) as (x & -> & Hx). cbn [bind]. destruct x as [i|b1 e1 len1]; [now subst|].
  destruct Hx as (B1 & L1 & E1 & Le1 & Pr1). replace (len1 =? 0) with false by lia.
  destruct (len1 <=? below) eqn:Bl; [apply std_lower_bound_ok; lia|].
  destruct (bisect_ok bs b1 e1 len1 false false) as (b2 & e2 & len2 & ab & ae & Q & B2 & L2 & E2 & Hab & Hae & Le2 & Pr2); try lia.
  rewrite Q. cbn [bind].
  destruct ab.
  - rewrite lt_at_ok by (destruct ae; lia). cbn [bind]. destruct (b2 <? p) eqn:C; cbn [negb]; [|f_equal; lia].
    destruct ae.
    + destruct e2 as [|e2]; [lia|]. cbn [before bind]. rewrite lt_at_ok by lia. cbn [bind].
      destruct (e2 <? p) eqn:C2; [f_equal; lia|]. apply IH; lia.
    + cbn [bind]. apply IH; lia.
  - cbn [bind negb]. specialize (Hab eq_refl). destruct ae.
    + destruct e2 as [|e2]; [lia|]. cbn [before bind]. rewrite lt_at_ok by lia. cbn [bind].
      destruct (e2 <? p) eqn:C2; [f_equal; lia|]. apply IH; lia.
    + cbn [bind]. apply IH; lia.
Qed.

Lemma interpolation_ok : forall fuel, length l <= fuel -> (0 < is \/ 0 < bs \/ length l <= below) ->
  interpolationLowerBound less estimator is bs below l v fuel = Ok p.
Proof.
  intros fuel F St. unfold interpolationLowerBound. destruct Hp as (Lp & _ & _).
  destruct (length l =? 0) eqn:Z; [f_equal; lia|]. rewrite lt_at_ok by lia. cbn [bind].
  destruct (0 <? p) eqn:C; [|f_equal; lia]. assert (Hb : 0 < length l) by lia.
  replace (before (length l)) with (Ok (length l - 1)) by (clear - Hb; destruct (length l); [lia|cbn; f_equal; lia]). cbn [bind].
  rewrite lt_at_ok by lia. cbn [bind]. destruct (length l - 1 <? p) eqn:C2; [f_equal; lia|]. apply search_ok; lia.
Qed.
End proofs.

(** A sorted range has a lower bound. *)
Lemma partition_point : forall A (less : A -> A -> bool) l v, strict_weak_order less -> in_order less l ->
  exists p, lower_bound_at less l v p.
Proof.
  intros A less l v (_ & _ & N). induction l as [|x l IH]; intros O.
  - exists 0. split; [cbn; lia|]. split; intros [|i] y H; discriminate.
  - destruct (less x v) eqn:E.
    + destruct IH as [p (H0 & H1 & H2)].
      { intros i j a b Ha Hb L. apply (O (S i) (S j)); auto. lia. }
      exists (S p). split; [cbn; lia|]. split; intros [|i] y Hy L; cbn in Hy.
      * now injection Hy as <-.
      * eapply H1; eauto. lia.
      * lia.
      * eapply H2; eauto. lia.
    + exists 0. split; [lia|]. split; intros i y Hy L; [lia|]. destruct i as [|i]; [cbn in Hy; now injection Hy as <-|].
      destruct (less y v) eqn:G; [|reflexivity]. destruct (N y x v G) as [H|H]; [|congruence].
      rewrite (O 0 (S i) x y) in H; [discriminate|reflexivity|exact Hy|lia].
Qed.
