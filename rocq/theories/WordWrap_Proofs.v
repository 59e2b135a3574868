(** Proofs about basicWordWrap. *)
From Coq Require Import List Arith ZArith Lia Bool ZifyBool ZifyNat.
From Verif Require Import Common CommonFacts WordWrap_Model WordWrap_Spec.
Import ListNotations.

Lemma lines_nonempty s : lines s <> [].
Proof. destruct s as [|c r]; cbn; [discriminate|]. destruct (c =? NL)%Z; [discriminate|]. destruct (lines r); discriminate. Qed.
Lemma lines_app_nonl x y : Forall (fun c => c <> NL) x -> exists h t, lines y = h :: t /\ lines (x ++ y) = (x ++ h) :: t.
Proof.
  intros F. destruct (lines y) as [|h t] eqn:E; [now apply lines_nonempty in E|]. exists h, t. split; [reflexivity|]. induction F as [|c x Hc F IH]; [exact E|]. cbn [app lines]. replace (c =? NL)%Z with false by lia. now rewrite IH.
Qed.
Lemma unlines_cons h r : r <> [] -> unlines (h :: r) = h ++ NL :: unlines r.
Proof. destruct r; [congruence|reflexivity]. Qed.
Lemma first_nl_None s : first_nl s = None -> Forall (fun c => c <> NL) s.
Proof. induction s as [|c r IH]; intros H; [constructor|]. cbn in H. destruct (c =? NL)%Z eqn:E; [discriminate|]. constructor; [lia|]. apply IH. now destruct (first_nl r). Qed.
Lemma first_nl_Some s n : first_nl s = Some n -> Forall (fun c => c <> NL) (firstn n s) /\ s = firstn n s ++ NL :: skipn (S n) s /\ n < length s.
Proof.
  revert n. induction s as [|c r IH]; intros n H; [discriminate|]. cbn [first_nl] in H. destruct (c =? NL)%Z eqn:E.
  - injection H as <-. cbn. split; [constructor|]. split; [f_equal; lia|lia].
  - destruct (first_nl r) as [k|]; [|discriminate]. injection H as <-. destruct (IH k eq_refl) as (A & B & C). cbn [firstn skipn app length]. split; [constructor; [lia|exact A]|]. split; [|lia]. f_equal. exact B.
Qed.

Lemma scan_spec s lim : forall k, lim + k < length s -> exists r, scan k lim s = Ok r /\ lim <= r <= lim + k /\
  (forall j, r < j <= lim + k -> nth_error s j <> Some SPACE) /\ (r = lim \/ nth_error s r = Some SPACE).
Proof.
  induction k as [|k IH]; intros H; [exists lim; cbn; split; [reflexivity|]; split; [lia|]; split; [intros; lia|auto]|]. cbn [scan].
  destruct (get_lt s (lim + S k) H) as (c & N & ->). cbn [bind]. destruct (Z.eqb_spec c SPACE) as [->|Nc].
  - exists (lim + S k). split; [reflexivity|]. split; [lia|]. split; [intros; lia|auto].
  - destruct (IH ltac:(lia)) as (r & E & B & F & G). exists r. split; [exact E|]. split; [lia|]. split; [|exact G]. intros j Hj. destruct (Nat.eq_dec j (lim + S k)) as [->|Nj]; [congruence|apply F; lia].
Qed.

(** What break_line does to a text whose unprocessed part starts with more than
    [w] characters. *)
Lemma break_spec d rest w : 10 <= w -> w < length rest ->
  (exists a b, rest = a ++ SPACE :: b /\ w / 2 <= length a <= w /\ (forall k, length a < k <= w -> nth_error rest k <> Some SPACE) /\
     break_line (d ++ rest) (length d) w = Ok (d ++ a ++ NL :: b, length (d ++ a ++ [NL]))) \/
  (exists a b, rest = a ++ b /\ length a = w /\ b <> [] /\ (forall k, w / 2 <= k <= w -> nth_error rest k <> Some SPACE) /\
     break_line (d ++ rest) (length d) w = Ok (d ++ a ++ NL :: b, length (d ++ a ++ [NL]))).
Proof.
  intros Hw HL. unfold break_line. rewrite app_length. replace (length d + w <? length d + length rest) with true by lia. cbn [invariant bind].
  assert (W2 : w / 2 <= w /\ 0 < w / 2) by (split; [apply Nat.div_le_upper_bound; lia|apply Nat.div_str_pos; lia]). destruct W2 as (W2 & W3).
  assert (NE : forall j, nth_error (d ++ rest) (length d + j) = nth_error rest j) by (intros j; rewrite nth_error_app2 by lia; f_equal; lia).
  destruct (scan_spec (d ++ rest) (length d + w / 2) (w - w / 2)) as (r & E & B & F & G); [rewrite app_length; lia|]. rewrite E. cbn [bind].
  replace ((length d <? r) && (r <? length d + length rest)) with true by lia. cbn [invariant bind].
  set (k := r - length d) in *. assert (Ek : r = length d + k) by (unfold k; lia). rewrite Ek in *.
  destruct (nth_error rest k) as [c|] eqn:N; [|apply nth_error_None in N; lia]. rewrite (get_Some _ _ c) by (rewrite NE; exact N). cbn [bind].
  destruct (Z.eqb_spec c SPACE) as [->|Nc].
  - left. destruct (nth_error_split _ _ N) as (a & b & Er & La). exists a, b. split; [exact Er|]. split; [lia|]. split; [intros j Hj; rewrite <- NE; apply F; lia|].
    rewrite put_ok by (rewrite app_length; lia). cbn [bind]. rewrite Er. rewrite app_assoc. rewrite <- La, <- app_length. rewrite upd_app_mid. rewrite <- app_assoc. do 2 f_equal. rewrite !app_length. cbn [length]. lia.
  - right. exists (firstn w rest), (skipn w rest). split; [now rewrite firstn_skipn|]. split; [apply firstn_length_le; lia|]. split; [intros C; apply (f_equal (@length Z)) in C; rewrite skipn_length in C; cbn in C; lia|].
    split.
    + intros j Hj. destruct (Nat.eq_dec j (w / 2)) as [->|Nj].
      * destruct G as [G|G]; [|rewrite NE, N in G; congruence]. replace (w / 2) with k by lia. rewrite N. congruence.
      * rewrite <- NE. apply F. destruct G as [G|G]; [lia|]. rewrite NE, N in G. congruence.
    + rewrite firstn_app_2, skipn_app, skipn_all2 by lia. cbn [app]. replace (length d + w - length d) with w by lia. rewrite <- app_assoc. cbn [app]. do 2 f_equal. rewrite !app_length, firstn_length_le by lia. cbn [length]. lia.
Qed.

Definition split_ok (w : nat) (rest : list Z) (out : list Z) : Prop := exists outs, Forall2 (wraps w) (lines rest) outs /\ out = unlines (concat outs).

Lemma wraps_nonempty w l o : wraps w l o -> o <> [].
Proof. intros H. destruct H; discriminate. Qed.
Lemma concat_nonempty {w x y} : Forall2 (wraps w) x y -> x <> [] -> concat y <> [].
Proof. intros F N. destruct F as [|a b x y H F]; [congruence|]. cbn. intros C. apply app_eq_nil in C. destruct C as [C _]. exact (wraps_nonempty _ _ _ H C). Qed.

Lemma split_nil w : split_ok w [] [].
Proof. exists [[[]]]. split; [constructor; [constructor; cbn; lia|constructor]|reflexivity]. Qed.
(** a line that fits *)
Lemma split_line w l rest out : Forall (fun c => c <> NL) l -> length l <= w -> split_ok w rest out -> split_ok w (l ++ NL :: rest) (l ++ NL :: out).
Proof.
  intros F L (outs & H & ->). exists ([l] :: outs). destruct (lines_app_nonl l (NL :: rest) F) as (h & t & E1 & E2). cbn in E1. injection E1 as <- <-. rewrite app_nil_r in E2. rewrite E2. split; [constructor; [now constructor|exact H]|].
  cbn [concat app]. rewrite unlines_cons; [reflexivity|]. eapply concat_nonempty; [exact H|apply lines_nonempty].
Qed.
Lemma split_one w l : Forall (fun c => c <> NL) l -> length l <= w -> split_ok w l l.
Proof.
  intros F L. exists [[l]]. destruct (lines_app_nonl l [] F) as (h & t & E1 & E2). cbn in E1. injection E1 as <- <-. rewrite !app_nil_r in E2. rewrite E2. split; [constructor; [now constructor|constructor]|reflexivity].
Qed.

Lemma first_line : forall n s h t, Forall (fun c => c <> NL) (firstn n s) -> n <= length s -> lines s = h :: t -> n <= length h /\ forall k, k < n -> nth_error h k = nth_error s k.
Proof.
  induction n as [|n IH]; intros s h t F L E; [split; [lia|intros; lia]|]. destruct s as [|c s]; [cbn in L; lia|]. cbn [firstn] in F. inversion F as [|? ? Hc F']; subst. cbn [lines] in E. replace (c =? NL)%Z with false in E by lia.
  destruct (lines s) as [|h' t'] eqn:ES; [now apply lines_nonempty in ES|]. injection E as <- <-. cbn in L. destruct (IH s h' t' F' ltac:(lia) ES) as (A & B). cbn [length]. split; [lia|]. intros [|k] Hk; [reflexivity|]. cbn. apply B. lia.
Qed.

(** a line that is broken: the first line of the text is longer than w, all of
    first w + 1 characters belong to it *)
Lemma split_space w a b out : Forall (fun c => c <> NL) (firstn (S w) (a ++ SPACE :: b)) -> w / 2 <= length a <= w -> w < length (a ++ SPACE :: b) ->
  (forall k, length a < k <= w -> nth_error (a ++ SPACE :: b) k <> Some SPACE) -> split_ok w b out -> split_ok w (a ++ SPACE :: b) (a ++ NL :: out).
Proof.
  intros F La L NS (outs & H & ->).
  assert (E : exists h t, lines b = h :: t /\ lines (a ++ SPACE :: b) = (a ++ SPACE :: h) :: t).
  { destruct (lines_app_nonl (a ++ [SPACE]) b) as (h & t & E1 & E2).
    - replace (S w) with (length (a ++ [SPACE]) + (w - length a)) in F by (rewrite app_length; cbn [length]; lia). change (a ++ SPACE :: b) with (a ++ [SPACE] ++ b) in F. rewrite app_assoc, firstn_app_2 in F. now apply Forall_app in F.
    - exists h, t. split; [exact E1|]. rewrite <- !app_assoc in E2. exact E2. }
  destruct E as (h & t & E1 & E2). rewrite E1 in H. inversion H as [|x o y os Hx Hy]; subst. exists ((a :: o) :: os). rewrite E2.
  destruct (first_line (S w) _ _ _ F ltac:(lia) E2) as (A & B).
  split.
  - constructor; [|exact Hy]. apply W_space; auto.
    intros k Hk. rewrite B by lia. now apply NS.
  - cbn [concat app]. rewrite unlines_cons; [reflexivity|]. intros C. apply app_eq_nil in C. destruct C as [C _]. exact (wraps_nonempty _ _ _ Hx C).
Qed.
Lemma split_cut w a b out : Forall (fun c => c <> NL) (firstn (S w) (a ++ b)) -> length a = w -> w < length (a ++ b) ->
  (forall k, w / 2 <= k <= w -> nth_error (a ++ b) k <> Some SPACE) -> split_ok w b out -> split_ok w (a ++ b) (a ++ NL :: out).
Proof.
  intros F La L NS (outs & H & ->).
  destruct (lines_app_nonl a b) as (h & t & E1 & E2).
  { replace (S w) with (length a + 1) in F by lia. rewrite firstn_app_2 in F. now apply Forall_app in F. }
  rewrite E1 in H. inversion H as [|x o y os Hx Hy]; subst. exists ((a :: o) :: os). rewrite E2.
  destruct (first_line (S (length a)) _ _ _ F ltac:(lia) E2) as (A & B).
  split.
  - constructor; [|exact Hy]. apply W_cut; auto.
    + intros ->. rewrite app_nil_r in A. lia.
    + intros k Hk. rewrite B by lia. now apply NS.
  - cbn [concat app]. rewrite unlines_cons; [reflexivity|]. intros C. apply app_eq_nil in C. destruct C as [C _]. exact (wraps_nonempty _ _ _ Hx C).
Qed.

Lemma loop_spec w : 10 <= w -> forall fuel d rest, length rest < fuel -> exists out, wrap_loop fuel (d ++ rest) (length d) w = Ok (d ++ out) /\ split_ok w rest out.
Proof.
  intros Hw. induction fuel as [|fuel IH]; intros d rest HF; [lia|]. cbn [wrap_loop]. unfold wrap_step, find_nl. rewrite skipn_app, skipn_all, Nat.sub_diag. cbn [app skipn].
  assert (BR : w < length rest -> Forall (fun c => c <> NL) (firstn (S w) rest) ->
    exists out, (let! r := (let! x := break_line (d ++ rest) (length d) w in Ok (Some x)) in
      match r with None => Ok (d ++ rest) | Some (s, p) => if p <? length s then wrap_loop fuel s p w else Ok s end) = Ok (d ++ out) /\ split_ok w rest out).
  { intros L F. destruct (break_spec d rest w Hw L) as [(a & b & E & La & NS & ->)|(a & b & E & La & NE & NS & ->)]; cbn [bind]; subst rest.
    - assert (R : exists out, (if length (d ++ a ++ [NL]) <? length (d ++ a ++ NL :: b) then wrap_loop fuel (d ++ a ++ NL :: b) (length (d ++ a ++ [NL])) w else Ok (d ++ a ++ NL :: b)) = Ok (d ++ a ++ NL :: out) /\ split_ok w b out).
      { destruct b as [|c b].
        - exists []. rewrite Nat.ltb_irrefl. split; [reflexivity|apply split_nil].
        - replace (length (d ++ a ++ [NL]) <? length (d ++ a ++ NL :: c :: b)) with true by (rewrite !app_length; cbn [length]; lia).
          destruct (IH (d ++ a ++ [NL]) (c :: b)) as (out & E & S). { rewrite app_length in HF. cbn [length] in *. lia. }
          exists out. split; [|exact S]. rewrite <- !app_assoc in E. cbn [app] in E. exact E. }
      destruct R as (out & R & S). exists (a ++ NL :: out). split; [exact R|]. now apply split_space.
    - assert (R : exists out, (if length (d ++ a ++ [NL]) <? length (d ++ a ++ NL :: b) then wrap_loop fuel (d ++ a ++ NL :: b) (length (d ++ a ++ [NL])) w else Ok (d ++ a ++ NL :: b)) = Ok (d ++ a ++ NL :: out) /\ split_ok w b out).
      { destruct b as [|c b]; [congruence|].
        replace (length (d ++ a ++ [NL]) <? length (d ++ a ++ NL :: c :: b)) with true by (rewrite !app_length; cbn [length]; lia).
          destruct (IH (d ++ a ++ [NL]) (c :: b)) as (out & E & S). { rewrite app_length in HF. cbn [length] in *. lia. }
          exists out. split; [|exact S]. rewrite <- !app_assoc in E. cbn [app] in E. exact E. }
      destruct R as (out & R & S). exists (a ++ NL :: out). split; [exact R|]. now apply split_cut. }
  destruct (first_nl rest) as [n|] eqn:N; cbn [option_map].
  - destruct (first_nl_Some _ _ N) as (F & E & L). replace (length d + n - length d) with n by lia. destruct (Nat.ltb_spec w n) as [C|C].
    + apply BR; [lia|]. replace (S w) with (Nat.min (S w) n) by lia. rewrite <- firstn_firstn. rewrite <- (firstn_skipn (S w) (firstn n rest)) in F. now apply Forall_app in F.
    + cbn [bind]. set (l := firstn n rest) in *. set (r := skipn (S n) rest) in *. assert (Ll : length l = n) by (apply firstn_length_le; lia). clearbody l r. subst rest. clear N BR.
      destruct r as [|c r].
      * replace (length d + n + 1 <? length (d ++ l ++ [NL])) with false by (rewrite !app_length; cbn [length]; lia). exists (l ++ [NL]). split; [reflexivity|]. apply split_line; [exact F|lia|apply split_nil].
      * replace (length d + n + 1 <? length (d ++ l ++ NL :: c :: r)) with true by (rewrite !app_length; cbn [length]; lia).
        destruct (IH (d ++ l ++ [NL]) (c :: r)) as (out & E & S). { rewrite app_length in HF. cbn [length] in *. lia. }
        exists (l ++ NL :: out). split; [|apply split_line; [exact F|lia|exact S]]. rewrite <- !app_assoc in E. cbn [app] in E. replace (length (d ++ l ++ [NL])) with (length d + n + 1) in E by (rewrite !app_length; cbn [length]; lia). exact E.
  - pose proof (first_nl_None _ N) as F. rewrite app_length. replace (length d + length rest - length d) with (length rest) by lia. destruct (Nat.leb_spec (length rest) w) as [C|C].
    + cbn [bind]. exists rest. split; [reflexivity|now apply split_one].
    + apply BR; [lia|]. rewrite <- (firstn_skipn (S w) rest) in F. now apply Forall_app in F.
Qed.

(** ** Consequences of the specification *)
Lemma wraps_short w l o : wraps w l o -> Forall (fun x => length x <= w) o.
Proof. induction 1; constructor; auto; lia. Qed.
Lemma wraps_nonl w l o : wraps w l o -> Forall (fun c => c <> NL) l -> Forall (Forall (fun c => c <> NL)) o.
Proof.
  induction 1; intros F; [constructor; auto| |]; apply Forall_app in F; destruct F as (F1 & F2).
  - inversion F2; subst. constructor; auto.
  - constructor; auto.
Qed.
Lemma lines_nonl s : Forall (Forall (fun c => c <> NL)) (lines s).
Proof. induction s as [|c r IH]; cbn; [repeat constructor|]. destruct (c =? NL)%Z eqn:E; [constructor; [constructor|exact IH]|]. destruct (lines r) as [|h t]; [constructor; [constructor; [lia|constructor]|constructor]|]. inversion IH; subst. constructor; [constructor; [lia|assumption]|assumption]. Qed.
Lemma lines_unlines l : l <> [] -> Forall (Forall (fun c => c <> NL)) l -> lines (unlines l) = l.
Proof.
  intros N F. induction F as [|h t Hh F IH]; [congruence|]. destruct t as [|h' t].
  - cbn. destruct (lines_app_nonl h [] Hh) as (x & y & E1 & E2). cbn in E1. injection E1 as <- <-. now rewrite !app_nil_r in E2.
  - rewrite unlines_cons by discriminate. destruct (lines_app_nonl h (NL :: unlines (h' :: t)) Hh) as (x & y & E1 & E2). cbn [lines] in E1. change (NL =? NL)%Z with true in E1. cbn iota in E1. rewrite IH in E1 by discriminate. injection E1 as <- <-. rewrite E2, app_nil_r. reflexivity.
Qed.
Lemma unlines_lines s : unlines (lines s) = s.
Proof.
  induction s as [|c r IH]; [reflexivity|]. cbn [lines]. destruct (Z.eqb_spec c NL) as [->|N].
  - rewrite unlines_cons by apply lines_nonempty. cbn [app]. now rewrite IH.
  - destruct (lines r) as [|h t] eqn:E; [now apply lines_nonempty in E|]. destruct t as [|h' t].
    + cbn in *. now rewrite IH.
    + rewrite unlines_cons in IH |- * by discriminate. cbn [app]. now rewrite IH.
Qed.
Lemma reflowed_refl s : reflowed s s.
Proof. induction s; constructor; auto. Qed.
Lemma reflowed_app a b c d : reflowed a b -> reflowed c d -> reflowed (a ++ c) (b ++ d).
Proof. intros H1 H2. induction H1; cbn; auto; constructor; auto. Qed.
Lemma wraps_reflowed w l o : wraps w l o -> reflowed l (unlines o).
Proof.
  induction 1 as [l H|a b out H1 H2 H3 W IH|a b out H1 H2 H3 W IH]; [apply reflowed_refl| |]; rewrite unlines_cons by exact (wraps_nonempty _ _ _ W).
  - apply reflowed_app; [apply reflowed_refl|now constructor].
  - apply reflowed_app; [apply reflowed_refl|now constructor].
Qed.
Lemma unlines_app x y : x <> [] -> y <> [] -> unlines (x ++ y) = unlines x ++ NL :: unlines y.
Proof.
  intros Nx Ny. induction x as [|h t IH]; [congruence|]. destruct t as [|h' t]; [cbn [app]; now rewrite unlines_cons|].
  change ((h :: h' :: t) ++ y) with (h :: ((h' :: t) ++ y)). rewrite (unlines_cons h (h' :: t)) by discriminate. rewrite unlines_cons by discriminate. rewrite IH by discriminate. now rewrite <- app_assoc.
Qed.
Lemma lines_reflowed w ls os : ls <> [] -> Forall2 (wraps w) ls os -> reflowed (unlines ls) (unlines (concat os)).
Proof.
  intros N F. induction F as [|l o ls os H F IH]; [congruence|]. cbn [concat]. destruct ls as [|l' ls].
  - inversion F; subst. cbn [concat]. rewrite app_nil_r. cbn [unlines]. now apply (wraps_reflowed w).
  - rewrite unlines_cons by discriminate. rewrite unlines_app; [|exact (wraps_nonempty _ _ _ H)|exact (concat_nonempty F ltac:(discriminate))]. apply reflowed_app; [now apply (wraps_reflowed w)|]. constructor. apply IH. discriminate.
Qed.
