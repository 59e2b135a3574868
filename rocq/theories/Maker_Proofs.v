(** Proofs about StatsMaker. *)
From Coq Require Import List Arith ZArith Lia Bool ZifyBool ZifyNat.
From Verif Require Import Common CommonFacts Maker_Model Maker_Spec.
Import ListNotations.

Definition strictly (n p : list Z) : Prop := exists q c rest, p = q ++ [c] /\ c <> DASH /\ n = p ++ DASH :: rest.

Lemma rfind_from_spec s : forall i, match rfind_from s i with
  | None => ~ In DASH s
  | Some j => exists x y, s = x ++ DASH :: y /\ ~ In DASH y /\ j = i + length x
  end.
Proof.
  induction s as [|c r IH]; intros i; [intros []|]. cbn [rfind_from]. specialize (IH (S i)). destruct (rfind_from r (S i)) as [j|].
  - destruct IH as (x & y & -> & N & ->). exists (c :: x), y. split; [reflexivity|]. split; [exact N|]. cbn. lia.
  - destruct (Z.eqb_spec c DASH) as [->|Nc]; [exists [], r; cbn; split; [reflexivity|]; split; [exact IH|lia]|]. intros [C|C]; [congruence|contradiction].
Qed.
Lemma skip_back_spec s : forall n, n <= length s -> skip_back s n <= n /\ (forall k, skip_back s n <= k < n -> nth k s 0%Z = DASH) /\ (skip_back s n = 0 \/ nth (skip_back s n - 1) s 0%Z <> DASH).
Proof.
  induction n as [|n IH]; intros H; [cbn; split; [lia|]; split; [intros; lia|auto]|]. cbn [skip_back]. destruct (Z.eqb_spec (nth n s 0%Z) DASH) as [E|N].
  - destruct (IH ltac:(lia)) as (A & B & C). split; [lia|]. split; [|exact C]. intros k Hk. destruct (Nat.eq_dec k n) as [->|Nk]; [exact E|apply B; lia].
  - split; [lia|]. split; [intros; lia|]. right. replace (S n - 1) with n by lia. exact N.
Qed.
(** the name without its last group of dashes *)
Lemma strip_spec s i : rfind s = Some i -> exists t k y, firstn (skip_back s (S i)) s = t /\ s = t ++ repeat DASH (S k) ++ y /\ ~ In DASH y /\ (t = [] \/ exists q c, t = q ++ [c] /\ c <> DASH).
Proof.
  intros E. unfold rfind in E. pose proof (rfind_from_spec s 0) as H. rewrite E in H. destruct H as (x & y & Es & N & ->). cbn [Nat.add] in *.
  assert (L : S (length x) <= length s) by (rewrite Es, app_length; cbn [length]; lia). destruct (skip_back_spec s (S (length x)) L) as (A & B & C). set (m := skip_back s (S (length x))) in *.
  exists (firstn m s), (length x - m), y. split; [reflexivity|].
  assert (Hm : m <= length x). { destruct (Nat.eq_dec m (S (length x))) as [Q|Q]; [|lia]. exfalso. destruct C as [C|C]; [lia|]. apply C. rewrite Q, Es. rewrite app_nth2 by lia. replace (S (length x) - 1 - length x) with 0 by lia. reflexivity. }
  split; [|split; [exact N|]].
  - assert (R : repeat DASH (S (length x - m)) = skipn m (x ++ [DASH])).
    { apply nth_ext with (d := 0%Z) (d' := 0%Z); [rewrite repeat_length, skipn_length, app_length; cbn [length]; lia|]. rewrite repeat_length. intros k Hk.
      rewrite (nth_indep _ 0%Z DASH) by (rewrite repeat_length; exact Hk). rewrite nth_repeat.
      assert (NS : nth k (skipn m (x ++ [DASH])) 0%Z = nth (m + k) (x ++ [DASH]) 0%Z). { rewrite <- (firstn_skipn m (x ++ [DASH])) at 2. rewrite app_nth2; rewrite firstn_length_le by (rewrite app_length; cbn [length]; lia); [f_equal; lia|lia]. }
      rewrite NS. specialize (B (m + k) ltac:(lia)). rewrite Es in B. change (x ++ DASH :: y) with (x ++ [DASH] ++ y) in B. rewrite app_assoc, app_nth1 in B by (rewrite app_length; cbn [length]; lia). now symmetry. }
    rewrite R, Es. change (x ++ DASH :: y) with (x ++ [DASH] ++ y). rewrite app_assoc. rewrite firstn_app. replace (m - length (x ++ [DASH])) with 0 by (rewrite app_length; cbn [length]; lia). cbn [firstn]. rewrite app_nil_r, app_assoc, firstn_skipn. reflexivity.
  - destruct (Nat.eq_dec m 0) as [->|Nm]; [now left|]. right. destruct C as [C|C]; [lia|]. exists (firstn (m - 1) s), (nth (m - 1) s 0%Z). split; [|exact C].
    replace m with (S (m - 1)) at 1 by lia. assert (L1 : m - 1 < length s) by lia. clear - L1. revert L1. generalize (m - 1). clear m. intros m L. revert m L. induction s as [|c r IH]; intros m L; [cbn in L; lia|]. destruct m as [|m]; [reflexivity|]. cbn [firstn nth app]. f_equal. apply IH. cbn in L. lia.
Qed.
Lemma strictly_strip n t k y p : n = t ++ repeat DASH (S k) ++ y -> ~ In DASH y -> (t = [] \/ exists q c, t = q ++ [c] /\ c <> DASH) ->
  (strictly n p <-> (p = t /\ t <> []) \/ strictly t p).
Proof.
  intros -> Ny Ht. split.
  - intros (q & c & rest & Ep & Nc & E). destruct (Nat.lt_trichotomy (length p) (length t)) as [L|[L|L]].
    + right. exists q, c. assert (Et : exists r, t = p ++ r). { exists (skipn (length p) t). rewrite <- (firstn_skipn (length p) t) at 1. f_equal. apply (f_equal (firstn (length p))) in E. rewrite firstn_app in E. replace (length p - length t) with 0 in E by lia. cbn [firstn] in E. rewrite app_nil_r in E. rewrite E, firstn_app, firstn_all, Nat.sub_diag. cbn [firstn]. now rewrite app_nil_r. }
      destruct Et as (r & ->). rewrite <- app_assoc in E. apply app_inv_head in E. destruct r as [|d r]; [rewrite app_nil_r in L; lia|]. cbn [app] in E. injection E as -> _. exists r. auto.
    + left. assert (p = t). { apply (f_equal (firstn (length p))) in E. rewrite L in E at 1. rewrite !firstn_app, !firstn_all, !Nat.sub_diag in E. cbn [firstn] in E. rewrite !app_nil_r in E. now symmetry. } split; [assumption|]. intros Z. rewrite Z in H. rewrite H in Ep. now destruct q.
    + exfalso. (* the last character of p, or the dash after it, is not where it must be *)
      assert (EN : forall j d, nth_error p j = Some d -> nth_error (t ++ repeat DASH (S k) ++ y) j = Some d). { intros j d H. rewrite E. rewrite nth_error_app1; [exact H|]. now apply nth_error_lt in H. }
      assert (Lp : length p = length q + 1) by (rewrite Ep, app_length; reflexivity).
      assert (E1 : nth_error (t ++ repeat DASH (S k) ++ y) (length p) = Some DASH) by (rewrite E, nth_error_app2, Nat.sub_diag by lia; reflexivity).
      assert (E2 : nth_error (t ++ repeat DASH (S k) ++ y) (length q) = Some c) by (apply EN; rewrite Ep, nth_error_app2, Nat.sub_diag by lia; reflexivity).
      rewrite nth_error_app2 in E1, E2 by lia. destruct (Nat.lt_ge_cases (length p - length t) (S k)) as [D|D].
      * rewrite nth_error_app1 in E2 by (rewrite repeat_length; lia). apply nth_error_In, repeat_spec in E2. congruence.
      * rewrite nth_error_app2 in E1 by (rewrite repeat_length; lia). apply nth_error_In in E1. contradiction.
  - intros [(-> & N)|(q & c & rest & Ep & Nc & E)].
    + destruct Ht as [Ht|(q & c & Et & Nc)]; [congruence|]. exists q, c, (repeat DASH k ++ y). auto.
    + exists q, c, (rest ++ repeat DASH (S k) ++ y). split; [exact Ep|]. split; [exact Nc|]. rewrite E, <- app_assoc. reflexivity.
Qed.
Lemma strictly_nodash n p : ~ In DASH n -> ~ strictly n p.
Proof. intros H (q & c & r & _ & _ & E). apply H. rewrite E. apply in_or_app. right. now left. Qed.
Lemma strictly_shorter n p : strictly n p -> length p < length n.
Proof. intros (q & c & r & _ & _ & E). rewrite E, app_length. cbn. lia. Qed.

Section D.
Context {D : Type}.
Implicit Type d : defs D.
Lemma search_spec d : forall fuel n, length n < fuel -> exists r, search D fuel d n = Ok r /\
  match r with
  | Some k => exists p, strictly n p /\ lookup d p = Some k /\ forall p', strictly n p' -> lookup d p' <> None -> length p' <= length p
  | None => forall p, strictly n p -> lookup d p = None
  end.
Proof.
  induction fuel as [|fuel IH]; intros n HF; [lia|]. cbn [search]. destruct (rfind n) as [i|] eqn:R.
  - destruct (strip_spec n i R) as (t & k & y & -> & En & Ny & Ht). pose proof (strictly_strip n t k y) as S. assert (Lt : length t < length n) by (rewrite En, !app_length, repeat_length; lia).
    destruct (IH t ltac:(lia)) as (r & Er & Hr). destruct (Nat.ltb_spec 0 (length t)) as [L|L].
    + assert (Nt : t <> []) by (intros ->; cbn in L; lia). destruct (lookup d t) as [k0|] eqn:Lk.
      * exists (Some k0). split; [reflexivity|]. exists t. split; [apply S; auto|]. split; [exact Lk|]. intros p' Hp' _. apply S in Hp'; auto. destruct Hp' as [(-> & _)|Hp']; [lia|]. apply strictly_shorter in Hp'. lia.
      * exists r. split; [exact Er|]. destruct r as [k0|].
        -- destruct Hr as (p & H1 & H2 & H3). exists p. split; [apply S; auto|]. split; [exact H2|]. intros p' Hp' N. apply S in Hp'; auto. destruct Hp' as [(-> & _)|Hp']; [congruence|]. now apply H3.
        -- intros p Hp. apply S in Hp; auto. destruct Hp as [(-> & _)|Hp]; [exact Lk|now apply Hr].
    + assert (Nt : t = []) by (destruct t; [reflexivity|cbn in L; lia]). exists r. split; [exact Er|]. destruct r as [k0|].
      * destruct Hr as (p & H1 & H2 & H3). exists p. split; [apply S; auto|]. split; [exact H2|]. intros p' Hp' N. apply S in Hp'; auto. destruct Hp' as [(_ & C)|Hp']; [congruence|]. now apply H3.
      * intros p Hp. apply S in Hp; auto. destruct Hp as [(_ & C)|Hp]; [congruence|now apply Hr].
  - exists None. split; [reflexivity|]. intros p Hp. exfalso. pose proof (rfind_from_spec n 0) as H. unfold rfind in R. rewrite R in H. exact (strictly_nodash n p H Hp).
Qed.

Variable simple : D.
Lemma default_spec d n : exists k d', getDefaultStatDef D simple d n = Ok (k, d') /\ chosen simple (lookup d) n k /\
  (d' = d \/ lookup d DEFAULT = None /\ d' = set_mode D d DEFAULT simple).
Proof.
  unfold getDefaultStatDef. destruct (lookup d n) as [k|] eqn:L.
  - exists k, d. split; [reflexivity|]. split; [|now left]. left. exists n. split; [now left|]. split; [exact L|]. intros p' [->|Hp'] _; [lia|]. apply strictly_shorter in Hp'. lia.
  - destruct (search_spec d (S (length n)) n ltac:(lia)) as (r & E & H). rewrite E. cbn [bind]. destruct r as [k|].
    + destruct H as (p & H1 & H2 & H3). exists k, d. split; [reflexivity|]. split; [|now left]. left. exists p. split; [now right|]. split; [exact H2|]. intros p' [->|Hp'] N; [congruence|now apply H3].
    + assert (NO : forall p, applies n p -> lookup d p = None) by (intros p [->|Hp]; [exact L|now apply H]).
      destruct (lookup d DEFAULT) as [k|] eqn:LD.
      * exists k, d. split; [reflexivity|]. split; [|now left]. right. split; [exact NO|now rewrite LD].
      * exists simple, (set_mode D d DEFAULT simple). split; [reflexivity|]. split; [|now right]. right. split; [exact NO|now rewrite LD].
Qed.

Lemma name_eqb_spec a b : name_eqb a b = true <-> a = b.
Proof. unfold name_eqb. destruct (list_eq_dec Z.eq_dec a b); split; congruence. Qed.
Lemma lookup_set d n k p : lookup (set_mode D d n k) p = if list_eq_dec Z.eq_dec n p then Some k else lookup d p.
Proof. cbn. unfold name_eqb. destruct (list_eq_dec Z.eq_dec n p); reflexivity. Qed.
Lemma setting_app past n k p now : setting (past ++ [MSet n k]) p now = if list_eq_dec Z.eq_dec n p then Some k else setting (D := D) past p now.
Proof. revert now. induction past as [|[m j|m] past IH]; intros now; cbn [app setting]; auto. Qed.

(** names that apply and are not longer than "default" *)
Lemma default_shortest n p : applies n DEFAULT -> applies n p -> length p <= length DEFAULT -> p = DEFAULT.
Proof.
  intros HD Hp L. assert (PN : forall p, applies n p -> exists r, n = p ++ r) by (intros x [->|(q & c & r & _ & _ & E)]; [exists []; rewrite app_nil_r; reflexivity|exists (DASH :: r); exact E]).
  destruct (PN _ HD) as (r1 & E1). destruct Hp as [->|(q & c & r & Ep & Nc & E)].
  - rewrite E1, app_length in L. destruct r1; [now rewrite app_nil_r in E1|cbn in L; lia].
  - destruct (Nat.eq_dec (length p) (length DEFAULT)) as [Q|Q].
    + rewrite E1 in E. apply (f_equal (firstn (length DEFAULT))) in E. rewrite <- Q in E at 2. rewrite !firstn_app, !firstn_all, !Nat.sub_diag in E. cbn [firstn] in E. now rewrite !app_nil_r in E.
    + exfalso. assert (E2 : nth_error n (length p) = Some DASH) by (rewrite E, nth_error_app2, Nat.sub_diag by lia; reflexivity). rewrite E1, nth_error_app1 in E2 by lia. apply nth_error_In in E2. cbn in E2. lia.
Qed.
Definition agree d (set : list Z -> option D) : Prop := (forall p, p <> DEFAULT -> lookup d p = set p) /\ (lookup d DEFAULT = set DEFAULT \/ set DEFAULT = None /\ lookup d DEFAULT = Some simple).
Lemma chosen_agree d set n k : agree d set -> chosen simple (lookup d) n k -> chosen simple set n k.
Proof.
  intros (A1 & A2) C. destruct A2 as [A2|(A2 & A3)].
  - assert (E : forall p, lookup d p = set p) by (intros p; destruct (list_eq_dec Z.eq_dec p DEFAULT) as [->|N]; auto).
    destruct C as [(p & H1 & H2 & H3)|(H1 & ->)]; [left; exists p; rewrite <- E; split; [exact H1|]; split; [exact H2|]; intros p' Hp'; rewrite <- E; now apply H3|right]. split; [intros p Hp; rewrite <- E; now apply H1|now rewrite E].
  - destruct C as [(p & H1 & H2 & H3)|(H1 & ->)].
    + destruct (list_eq_dec Z.eq_dec p DEFAULT) as [->|N].
      * right. rewrite A3 in H2. injection H2 as <-. rewrite A2. split; [|reflexivity]. intros p' Hp'. destruct (list_eq_dec Z.eq_dec p' DEFAULT) as [->|N]; [exact A2|].
        destruct (set p') eqn:S; [|reflexivity]. exfalso. apply N. apply (default_shortest n); auto. apply H3; [exact Hp'|]. rewrite A1, S by exact N. discriminate.
      * left. exists p. split; [exact H1|]. split; [now rewrite <- A1|]. intros p' Hp' S. apply H3; [exact Hp'|]. destruct (list_eq_dec Z.eq_dec p' DEFAULT) as [->|N']; [congruence|]. now rewrite A1.
    + right. rewrite A2, A3. split; [|reflexivity]. intros p Hp. destruct (list_eq_dec Z.eq_dec p DEFAULT) as [->|N]; [exact A2|]. rewrite <- A1 by exact N. now apply H1.
Qed.
Lemma run_spec l : forall past d, agree d (fun p => setting past p None) -> exists ks, m_run D simple d l = Ok ks /\ makes simple past l ks.
Proof.
  induction l as [|[n k|n] l IH]; intros past d A.
  - exists []. split; [reflexivity|constructor].
  - cbn [m_run]. destruct (IH (past ++ [MSet n k]) (set_mode D d n k)) as (ks & E & H).
    + destruct A as (A1 & A2). split.
      * intros p Np. rewrite lookup_set, setting_app. destruct (list_eq_dec Z.eq_dec n p); [reflexivity|now apply A1].
      * rewrite lookup_set, setting_app. destruct (list_eq_dec Z.eq_dec n DEFAULT); [now left|exact A2].
    + exists ks. split; [exact E|]. now constructor.
  - cbn [m_run]. destruct (default_spec d n) as (k & d' & E & C & Hd). rewrite E. cbn [bind].
    destruct (IH past d') as (ks & E2 & H).
    + destruct Hd as [->|(LD & ->)]; [exact A|]. destruct A as (A1 & A2). split.
      * intros p Np. rewrite lookup_set. destruct (list_eq_dec Z.eq_dec DEFAULT p); [congruence|now apply A1].
      * right. destruct A2 as [A2|(A2 & A3)]; [|congruence]. split; [congruence|]. reflexivity.
    + exists (k :: ks). rewrite E2. split; [reflexivity|]. constructor; [|exact H]. now apply (chosen_agree d).
Qed.
End D.
