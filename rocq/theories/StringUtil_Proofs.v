(** Lemmas about the StringUtil model. *)
From Coq Require Import List ZArith Bool Lia ZifyBool ZifyNat.
From Verif Require Import Common ListFacts StringUtil_Spec StringUtil_Model.
Import ListNotations.
Local Open Scope Z_scope.

Lemma s32_small : forall z, 0 <= z < 2 ^ 31 -> s32 z = z.
Proof.
  intros z Hz. unfold s32. rewrite Z.mod_small by lia. destruct (z <? 2 ^ 31) eqn:E; lia.
Qed.
Lemma s32_npos : s32 npos = -1. Proof. reflexivity. Qed.

Lemma prefixb_iff : forall pat s, prefixb pat s = true <-> exists t, s = pat ++ t.
Proof.
  induction pat as [|p pat IH]; intros s; cbn [prefixb app].
  - split; eauto.
  - destruct s as [|c s]; [split; [discriminate|intros [t Ht]; discriminate]|].
    rewrite andb_true_iff, IH, Z.eqb_eq. split.
    + intros [-> [t ->]]; eauto.
    + intros [t Ht]. injection Ht as -> ->. eauto.
Qed.

Lemma first_match_Some : forall s pat k, first_match s pat = Some k ->
  exists r, s = firstn k s ++ pat ++ r /\ (k + length pat + length r = length s)%nat
    /\ forall b a, s = b ++ pat ++ a -> (k <= length b)%nat.
Proof.
  induction s as [|c s IH]; intros pat k; cbn [first_match].
  - destruct (prefixb pat []) eqn:E; [|discriminate]. intros H; injection H as <-.
    apply prefixb_iff in E. destruct E as [t Ht]. exists t. symmetry in Ht. apply app_eq_nil in Ht. destruct Ht as [-> ->]. repeat split; intros; lia.
  - destruct (prefixb pat (c :: s)) eqn:E.
    + intros H; injection H as <-. apply prefixb_iff in E. destruct E as [t Ht]. exists t. rewrite Ht.
      rewrite app_length. cbn [firstn app length]. repeat split; lia.
    + destruct (first_match s pat) as [k'|] eqn:F; cbn; [|discriminate]. intros H; injection H as <-.
      destruct (IH _ _ F) as (r & Hr & Hl & Hm). exists r. cbn [firstn app length].
      repeat split.
      * f_equal. exact Hr.
      * lia.
      * intros b a H. destruct b as [|x b].
        -- exfalso. assert (prefixb pat (c :: s) = true) by (apply prefixb_iff; exists a; exact H). congruence.
        -- injection H as _ H. apply Hm in H. cbn. lia.
Qed.

Lemma first_match_None : forall s pat, first_match s pat = None -> ~ occurs pat s.
Proof.
  induction s as [|c s IH]; intros pat; cbn [first_match].
  - destruct (prefixb pat []) eqn:E; [discriminate|]. intros _ (b & a & H).
    destruct b; [|discriminate]. assert (prefixb pat [] = true) by (apply prefixb_iff; exists a; exact H). congruence.
  - destruct (prefixb pat (c :: s)) eqn:E; [discriminate|].
    destruct (first_match s pat) as [k'|] eqn:F; cbn; [discriminate|]. intros _ (b & a & H).
    destruct b as [|x b].
    + assert (prefixb pat (c :: s) = true) by (apply prefixb_iff; exists a; exact H). congruence.
    + injection H as _ H. apply (IH _ F). exists b, a. exact H.
Qed.

(** The pieces, as a function of the remaining text. *)
Fixpoint pieces (fuel : nat) (s sep : str) : list str :=
  match fuel with
  | O => []
  | S f => match first_match s sep with
           | None => [s]
           | Some k => firstn k s :: pieces f (skipn (k + length sep) s) sep
           end
  end.

Lemma split_loop_pieces : forall fuel s sep start bits,
  len s + len sep < 2 ^ 31 -> (0 < length sep)%nat -> (start <= length s)%nat ->
  (length s - start < fuel)%nat ->
  split_loop fuel s sep (Z.of_nat start) bits = Ok (bits ++ pieces fuel (skipn start s) sep).
Proof.
  induction fuel as [|f IH]; intros s sep start bits Hlen Hsep Hstart Hf; [lia|].
  cbn [split_loop pieces].
  unfold string_find. replace (len s <? Z.of_nat start) with false by lia.
  rewrite Nat2Z.id. destruct (first_match (skipn start s) sep) as [k|] eqn:F.
  - destruct (first_match_Some _ _ _ F) as (r & Hr & Hl & _). rewrite skipn_length in Hl.
    rewrite s32_small by lia. replace (Z.of_nat start + Z.of_nat k <? 0) with false by lia.
    unfold invariant. replace (Z.of_nat start <=? Z.of_nat start + Z.of_nat k) with true by lia. cbn [bind].
    unfold substr. replace (len s <? Z.of_nat start) with false by lia. cbn [bind]. rewrite Nat2Z.id.
    replace (Z.to_nat (Z.of_nat start + Z.of_nat k - Z.of_nat start)) with k by lia.
    rewrite s32_small by lia.
    replace (Z.of_nat start + Z.of_nat k + len sep) with (Z.of_nat (start + (k + length sep))) by lia.
    rewrite IH by lia. rewrite <- app_assoc. cbn [app]. rewrite skipn_skipn.
    do 3 f_equal. f_equal. f_equal. lia.
  - rewrite s32_npos. cbn [Z.ltb Z.compare]. unfold substr. replace (len s <? Z.of_nat start) with false by lia.
    cbn [bind]. rewrite Nat2Z.id. rewrite firstn_all2; [reflexivity|]. rewrite skipn_length. lia.
Qed.

Lemma split_pieces : forall s sep, len s + len sep < 2 ^ 31 -> sep <> [] ->
  split s sep = Ok (pieces (S (length s)) s sep).
Proof.
  intros s sep Hl Hs. unfold split.
  assert (0 < length sep)%nat by (destruct sep; [congruence|cbn; lia]).
  unfold invariant. replace (0 <? len sep) with true by lia. cbn [bind].
  rewrite (split_loop_pieces _ s sep 0%nat) by lia. reflexivity.
Qed.

Lemma join_loop_false : forall j bits ret, join_loop j bits false ret = ret ++ concat (map (fun b => j ++ b) bits).
Proof.
  induction bits as [|b bits IH]; intros ret; cbn [join_loop map concat].
  - now rewrite app_nil_r.
  - rewrite IH, <- !app_assoc. reflexivity.
Qed.
Lemma join_cons : forall j b bits, join j (b :: bits) = b ++ concat (map (fun b => j ++ b) bits).
Proof. intros. unfold join. cbn [join_loop]. now rewrite join_loop_false. Qed.
Lemma join_cons2 : forall j b c bits, join j (b :: c :: bits) = b ++ j ++ join j (c :: bits).
Proof. intros. rewrite !join_cons. cbn [map concat]. now rewrite <- !app_assoc. Qed.

Lemma pieces_join : forall fuel s sep, (0 < length sep)%nat -> (length s < fuel)%nat ->
  pieces fuel s sep <> [] /\ join sep (pieces fuel s sep) = s /\ Forall (fun p => ~ occurs sep p) (pieces fuel s sep).
Proof.
  induction fuel as [|f IH]; intros s sep Hsep Hf; [lia|]. cbn [pieces].
  destruct (first_match s sep) as [k|] eqn:F.
  - destruct (first_match_Some _ _ _ F) as (r & Hr & Hl & Hm).
    assert (Hsk : skipn (k + length sep) s = r).
    { rewrite Hr at 1. rewrite app_assoc, skipn_app.
      rewrite skipn_all2 by (rewrite app_length, firstn_length; lia).
      rewrite app_length, firstn_length. replace (k + length sep - _)%nat with 0%nat by lia. reflexivity. }
    rewrite Hsk. destruct (IH r sep Hsep) as (Hne & Hj & Hall); [lia|].
    split; [discriminate|]. split.
    + destruct (pieces f r sep) as [|c bits]; [congruence|]. rewrite join_cons2, Hj. symmetry; exact Hr.
    + constructor; [|assumption]. intros (b & a & Hoc).
      assert (Hx : s = b ++ sep ++ (a ++ sep ++ r)).
      { rewrite Hr at 1. rewrite Hoc. now rewrite <- !app_assoc. }
      apply Hm in Hx. apply (f_equal (@length Z)) in Hoc.
      rewrite !app_length, firstn_length in Hoc. lia.
  - split; [discriminate|]. split; [rewrite join_cons; cbn; apply app_nil_r|].
    constructor; [|constructor]. now apply first_match_None.
Qed.

Lemma first_match_char : forall p c r, ~ In c p -> first_match (p ++ c :: r) [c] = Some (length p).
Proof.
  induction p as [|x p IH]; intros c r Hn; cbn [app first_match prefixb].
  - now rewrite Z.eqb_refl.
  - assert (c =? x = false) by (rewrite Z.eqb_neq; intros ->; apply Hn; now left).
    rewrite H. cbn [andb]. rewrite IH; [reflexivity|]. intros Hi; apply Hn; now right.
Qed.
Lemma first_match_char_None : forall p c, ~ In c p -> first_match p [c] = None.
Proof.
  induction p as [|x p IH]; intros c Hn; cbn [first_match prefixb]; [reflexivity|].
  assert (c =? x = false) by (rewrite Z.eqb_neq; intros ->; apply Hn; now left).
  rewrite H. cbn [andb]. rewrite IH; [reflexivity|]. intros Hi; apply Hn; now right.
Qed.

Lemma pieces_of_join : forall parts fuel c, parts <> [] -> Forall (fun p => ~ In c p) parts ->
  (length (join [c] parts) < fuel)%nat -> pieces fuel (join [c] parts) [c] = parts.
Proof.
  induction parts as [|p parts IH]; intros fuel c Hne Hall Hf; [congruence|].
  inversion Hall; subst. destruct fuel as [|f]; [lia|]. destruct parts as [|q parts].
  - rewrite join_cons in *. cbn [map concat] in *. rewrite app_nil_r in *. cbn [pieces].
    now rewrite first_match_char_None.
  - rewrite join_cons2 in *. cbn [app] in *. cbn [pieces]. rewrite first_match_char by assumption.
    rewrite firstn_app, Nat.sub_diag, firstn_all, app_nil_r. f_equal.
    rewrite skipn_app, skipn_all2 by (cbn; lia). cbn [app length].
    replace (length p + 1 - length p)%nat with 1%nat by lia. cbn [skipn].
    apply IH; [discriminate|assumption|]. rewrite app_length in Hf. cbn [length] in Hf. lia.
Qed.

(** ** mysqlEscape *)
Definition mysql_char (c : Z) : str := if negb (mysql_escape_table c =? 0) then [92; mysql_escape_table c] else [c].
Lemma mysql_loop_app : forall data ret, mysql_loop data ret = ret ++ concat (map mysql_char data).
Proof.
  induction data as [|c data IH]; intros ret; cbn [mysql_loop map concat].
  - now rewrite app_nil_r.
  - unfold mysql_char at 1. destruct (negb _); rewrite IH, <- ?app_assoc; reflexivity.
Qed.
Lemma u32_len_firstn : forall s : str, len s < 2 ^ 32 -> firstn (Z.to_nat (u32 (len s))) s = s.
Proof. intros s H. unfold u32. rewrite Z.mod_small by lia. rewrite Nat2Z.id. apply firstn_all. Qed.
Lemma mysqlEscape_concat : forall data, len data < 2 ^ 32 -> mysqlEscape data = concat (map mysql_char data).
Proof. intros. unfold mysqlEscape. rewrite u32_len_firstn by assumption. apply mysql_loop_app. Qed.

Definition mysql_cases (c : Z) : Prop :=
  (In c [0; 8; 9; 10; 13; 26; 34; 39; 92] /\ mysql_char c = [92; mysql_escape_table c])
  \/ (c <> 0 /\ c <> 8 /\ c <> 9 /\ c <> 10 /\ c <> 13 /\ c <> 26 /\ c <> 34 /\ c <> 39 /\ c <> 92 /\ mysql_char c = [c]).
Lemma mysql_char_cases : forall c, mysql_cases c.
Proof.
  intros c. unfold mysql_cases.
  destruct (Z.eq_dec c 0) as [->|]; [left; split; [cbn; tauto|reflexivity]|].
  destruct (Z.eq_dec c 8) as [->|]; [left; split; [cbn; tauto|reflexivity]|].
  destruct (Z.eq_dec c 9) as [->|]; [left; split; [cbn; tauto|reflexivity]|].
  destruct (Z.eq_dec c 10) as [->|]; [left; split; [cbn; tauto|reflexivity]|].
  destruct (Z.eq_dec c 13) as [->|]; [left; split; [cbn; tauto|reflexivity]|].
  destruct (Z.eq_dec c 26) as [->|]; [left; split; [cbn; tauto|reflexivity]|].
  destruct (Z.eq_dec c 34) as [->|]; [left; split; [cbn; tauto|reflexivity]|].
  destruct (Z.eq_dec c 39) as [->|]; [left; split; [cbn; tauto|reflexivity]|].
  destruct (Z.eq_dec c 92) as [->|]; [left; split; [cbn; tauto|reflexivity]|].
  right. repeat (split; [assumption|]). unfold mysql_char.
  replace (mysql_escape_table c) with 0; [reflexivity|].
  unfold mysql_escape_table. destruct c as [|p|p]; [congruence| |reflexivity].
  do 7 (destruct p as [p|p|]; try reflexivity; try congruence).
Qed.

Lemma mysql_read_plain : forall q c r, c <> 92 -> c <> q ->
  mysql_read q (c :: r) = match mysql_read q r with Some (v, rest) => Some (c :: v, rest) | None => None end.
Proof.
  intros q c r H1 H2. assert (E : c =? q = false) by lia.
  destruct c as [|p|p]; cbn [mysql_read]; try (rewrite E; reflexivity).
  do 7 (destruct p as [p|p|]; try (cbn [mysql_read]; rewrite E; reflexivity); try congruence).
Qed.
Lemma mysql_read_quote : forall q r, q <> 92 -> hd_error r <> Some q -> mysql_read q (q :: r) = Some ([], r).
Proof.
  intros q r H1 H2.
  assert (E : mysql_read q (q :: r) = if q =? q then
      match r with
      | d :: r' => if d =? q then match mysql_read q r' with Some (v, rest) => Some (q :: v, rest) | None => None end
                   else Some ([], r)
      | [] => Some ([], [])
      end
    else match mysql_read q r with Some (v, rest) => Some (q :: v, rest) | None => None end).
  { destruct q as [|p|p]; try reflexivity. do 7 (destruct p as [p|p|]; try reflexivity; try congruence). }
  rewrite E, Z.eqb_refl. destruct r as [|d r]; [reflexivity|].
  destruct (d =? q) eqn:D; [|reflexivity]. exfalso. apply H2. cbn. f_equal. lia.
Qed.

Lemma mysql_read_escaped : forall data q rest, (q = 34 \/ q = 39) -> hd_error rest <> Some q ->
  mysql_read q (concat (map mysql_char data) ++ q :: rest) = Some (data, rest).
Proof.
  induction data as [|c data IH]; intros q rest Hq Hrest; cbn [map concat].
  - cbn [app]. apply mysql_read_quote; [lia|assumption].
  - rewrite <- app_assoc. destruct (mysql_char_cases c) as [[Hin ->]|H].
    + cbn [app mysql_read]. rewrite IH by assumption.
      cbn in Hin. repeat (destruct Hin as [<-|Hin]; [reflexivity|]). contradiction.
    + destruct H as (?&?&?&?&?&?&?&?&?&->). cbn [app]. rewrite mysql_read_plain by lia. now rewrite IH.
Qed.

(** No control character that MySQL treats specially remains. *)
Lemma mysql_no_special : forall data, Forall (fun c => c <> 0 /\ c <> 10 /\ c <> 13 /\ c <> 26) (concat (map mysql_char data)).
Proof.
  induction data as [|c data IH]; cbn [map concat]; [constructor|]. apply Forall_app. split; [|assumption].
  destruct (mysql_char_cases c) as [[Hin ->]|H].
  - cbn in Hin. repeat (destruct Hin as [<-|Hin]; [repeat constructor; discriminate|]). contradiction.
  - destruct H as (?&?&?&?&?&?&?&?&?&->). repeat constructor; assumption.
Qed.

(** ** Hexadecimal *)
Definition hex_char (c : Z) : str := [hextable (Z.land (Z.shiftr c 4) 15); hextable (Z.land c 15)].
Lemma hex_loop_app : forall data ret, hex_loop data ret = ret ++ concat (map hex_char data).
Proof.
  induction data as [|c data IH]; intros ret; cbn [hex_loop map concat].
  - now rewrite app_nil_r.
  - rewrite IH, <- !app_assoc. reflexivity.
Qed.
Lemma hexstring_concat : forall data, len data < 2 ^ 32 -> hexstring data = concat (map hex_char data).
Proof. intros. unfold hexstring. rewrite u32_len_firstn by assumption. apply hex_loop_app. Qed.

Lemma forall_byte : forall P : Z -> bool, forallb (fun n => P (Z.of_nat n)) (seq 0 256) = true ->
  forall c, 0 <= c < 256 -> P c = true.
Proof.
  intros P H c Hc. rewrite forallb_forall in H. rewrite <- (Z2Nat.id c) by lia. apply H. apply in_seq. lia.
Qed.

Definition hex_char_ok (c : Z) : bool :=
  match hex_char c with
  | [a; b] => isxdigit a && isxdigit b && isprint a && isprint b && negb (a =? 37)
              && negb ((65 <=? a) && (a <=? 90)) && negb ((65 <=? b) && (b <=? 90))
              && (16 * hex_value a + hex_value b =? c)
              && match unpackhex a b with Ok v => v =? c | _ => false end
  | _ => false
  end.
Lemma hex_char_okay : forall c, 0 <= c < 256 -> hex_char_ok c = true.
Proof. apply forall_byte. vm_compute. reflexivity. Qed.
Lemma hex_char_facts : forall c, 0 <= c < 256 -> exists a b, hex_char c = [a; b]
  /\ isxdigit a = true /\ isxdigit b = true /\ printable a /\ printable b /\ a <> 37 /\ ~ (65 <= a <= 90) /\ ~ (65 <= b <= 90)
  /\ 16 * hex_value a + hex_value b = c /\ unpackhex a b = Ok c.
Proof.
  intros c Hc. pose proof (hex_char_okay c Hc) as H. unfold hex_char_ok in H.
  unfold hex_char in *. eexists _, _. split; [reflexivity|].
  set (a := hextable _) in *. set (b := hextable (Z.land c 15)) in *.
  destruct (unpackhex a b) as [v| | |] eqn:E; try (rewrite andb_false_r in H; discriminate).
  unfold isprint, printable in *.
  assert (v = c) by lia. subst v. repeat split; lia.
Qed.

Lemma hex_length : forall data, length (concat (map hex_char data)) = (2 * length data)%nat.
Proof. induction data; cbn [map concat]; [reflexivity|]. rewrite app_length, IHdata. cbn. lia. Qed.

Lemma isxdigit_iff : forall c, isxdigit c = true <-> is_hex_digit c.
Proof. intros c. unfold isxdigit, is_hex_digit. lia. Qed.

Lemma hex_digits : forall data, byte_str data -> Forall is_hex_digit (concat (map hex_char data)).
Proof.
  induction 1; cbn [map concat]; [constructor|]. apply Forall_app. split; [|assumption].
  destruct (hex_char_facts x H) as (a & b & -> & Ha & Hb & _). rewrite isxdigit_iff in *. auto.
Qed.
Lemma hex_lower : forall data, byte_str data -> Forall (fun c => ~ (65 <= c <= 90)) (concat (map hex_char data)).
Proof.
  induction 1; cbn [map concat]; [constructor|]. apply Forall_app. split; [|assumption].
  destruct (hex_char_facts x H) as (a & b & -> & _ & _ & _ & _ & _ & Ha & Hb & _). auto.
Qed.

Lemma hex2raw_loop_hex : forall data, byte_str data -> hex2raw_loop (length data) (concat (map hex_char data)) = Ok data.
Proof.
  induction 1; cbn [map concat length hex2raw_loop]; [reflexivity|].
  destruct (hex_char_facts x H) as (a & b & -> & _ & _ & _ & _ & _ & _ & _ & _ & Hu). cbn [app].
  rewrite Hu. cbn [bind]. rewrite IHForall. reflexivity.
Qed.
Lemma hex2raw_even : forall s, len s < 2 ^ 32 -> (Nat.even (length s) = true) ->
  hex2raw s = hex2raw_loop (Nat.div2 (length s)) s.
Proof.
  intros s Hl He. unfold hex2raw, u32. cbv zeta. rewrite (Z.mod_small (len s) (2 ^ 32)) by lia.
  apply Nat.even_spec in He. destruct He as [k Hk]. rewrite Hk.
  rewrite Nat.div2_double. replace (Z.of_nat (2 * k)) with (Z.of_nat k * 2) by lia.
  rewrite Z.mod_mul, Z.div_mul by lia. cbn. now rewrite Nat2Z.id.
Qed.
Lemma hex2raw_hexstring : forall data, byte_str data -> 2 * len data < 2 ^ 32 -> hex2raw (hexstring data) = Ok data.
Proof.
  intros data Hb Hl. rewrite hexstring_concat by lia.
  rewrite hex2raw_even; rewrite hex_length.
  - rewrite Nat.div2_double. now apply hex2raw_loop_hex.
  - lia.
  - apply Nat.even_spec. now exists (length data).
Qed.

(** hex2raw reads digits of both cases and gives their numeric value. *)
Fixpoint pair_up (s : str) : str :=
  match s with a :: b :: r => (16 * hex_value a + hex_value b) :: pair_up r | _ => [] end.
Definition unpack_ok (a b : Z) : bool :=
  if isxdigit a && isxdigit b then match unpackhex a b with Ok v => v =? 16 * hex_value a + hex_value b | _ => false end
  else match unpackhex a b with Abort => true | _ => false end.
Lemma unpackhexchar_spec : forall a, unpackhexchar a = if isxdigit a then Ok (hex_value a) else Abort.
Proof.
  intros a. unfold unpackhexchar, isxdigit, hex_value.
  destruct ((48 <=? a) && (a <=? 57)) eqn:E1; cbn [orb].
  { replace (a <=? 57) with true by lia. reflexivity. }
  destruct ((97 <=? a) && (a <=? 102)) eqn:E2; cbn [orb].
  { replace (a <=? 57) with false by lia. replace (a <=? 70) with false by lia. f_equal; lia. }
  destruct ((65 <=? a) && (a <=? 70)) eqn:E3; cbn [orb]; [|reflexivity].
  replace (a <=? 57) with false by lia. replace (a <=? 70) with true by lia. f_equal; lia.
Qed.
Lemma hex_value_range : forall a, isxdigit a = true -> 0 <= hex_value a < 16.
Proof. intros a. unfold isxdigit, hex_value. destruct (a <=? 57) eqn:?; [lia|]. destruct (a <=? 70) eqn:?; lia. Qed.
Definition lor_ok (n : Z) : bool := Z.lor (Z.shiftl (n / 16) 4) (n mod 16) mod 256 =? n.
Lemma unpackhex_spec : forall a b,
  unpackhex a b = if isxdigit a && isxdigit b then Ok (16 * hex_value a + hex_value b) else Abort.
Proof.
  intros a b. unfold unpackhex. rewrite !unpackhexchar_spec.
  destruct (isxdigit a) eqn:A; cbn [bind andb]; [|reflexivity].
  destruct (isxdigit b) eqn:B; cbn [bind]; [|reflexivity].
  apply hex_value_range in A. apply hex_value_range in B.
  set (x := hex_value a) in *. set (y := hex_value b) in *.
  assert (H : lor_ok (16 * x + y) = true) by (apply forall_byte; [vm_compute; reflexivity|lia]).
  unfold lor_ok in H. replace ((16 * x + y) / 16) with x in H by (Z.to_euclidean_division_equations; lia).
  replace ((16 * x + y) mod 16) with y in H by (Z.to_euclidean_division_equations; lia).
  f_equal. lia.
Qed.
Lemma even_ind : forall P : str -> Prop, P [] -> (forall a b r, P r -> P (a :: b :: r)) ->
  forall s, Nat.even (length s) = true -> P s.
Proof.
  intros P H0 H2 s. remember (length s) as n eqn:Hn. revert s Hn.
  induction n as [n IH] using lt_wf_ind. intros s Hn He.
  destruct s as [|a [|b r]]; [assumption|subst; discriminate|].
  apply H2. apply (IH (length r)); subst; cbn in *; [lia|reflexivity|assumption].
Qed.
Lemma hex2raw_loop_spec : forall s, Nat.even (length s) = true ->
  hex2raw_loop (Nat.div2 (length s)) s = if forallb isxdigit s then Ok (pair_up s) else Abort.
Proof.
  apply even_ind; [reflexivity|]. intros a b r IH. cbn [length Nat.div2 hex2raw_loop forallb pair_up].
  rewrite unpackhex_spec, IH. destruct (isxdigit a); cbn [andb bind]; [|reflexivity].
  destruct (isxdigit b); cbn [andb bind]; [|reflexivity]. destruct (forallb isxdigit r); reflexivity.
Qed.
Lemma pair_up_short : forall s, Nat.even (length s) = true -> length (pair_up s) = Nat.div2 (length s).
Proof. apply even_ind; [reflexivity|]. intros a b r IH. cbn [length pair_up Nat.div2]. now rewrite IH. Qed.

Lemma all_printable_iff : forall s, all_printable s = true <-> Forall printable s.
Proof.
  induction s as [|c s IH]; cbn [all_printable]; [split; auto|].
  unfold isprint, isascii. split.
  - destruct (_ && _) eqn:E; [|discriminate]. intros H. constructor; [unfold printable; lia|now apply IH].
  - intros H. inversion H; subst. unfold printable in *. replace (_ && _) with true by lia. now apply IH.
Qed.
Lemma all_xdigit_forallb : forall s, all_xdigit s = forallb isxdigit s.
Proof. induction s as [|c s IH]; cbn; [reflexivity|]. destruct (isxdigit c); [assumption|reflexivity]. Qed.
Lemma forallb_xdigit : forall s, forallb isxdigit s = true <-> Forall is_hex_digit s.
Proof.
  intros s. rewrite forallb_forall, Forall_forall. split; intros H x Hx; apply isxdigit_iff; auto.
Qed.
Lemma even_Z : forall n, (Z.of_nat n mod 2 =? 0) = Nat.even n.
Proof.
  intros n. destruct (Nat.even n) eqn:E.
  - apply Nat.even_spec in E. destruct E as [k ->]. rewrite Nat2Z.inj_mul, Z.mul_comm, Z.mod_mul by lia. reflexivity.
  - assert (O : Nat.odd n = true) by (unfold Nat.odd; now rewrite E). apply Nat.odd_spec in O. destruct O as [k ->].
    replace (Z.of_nat (2 * k + 1)) with (1 + Z.of_nat k * 2) by lia. rewrite Z.mod_add by lia. reflexivity.
Qed.
Lemma ishexstring_spec : forall s, ishexstring s = Nat.even (length s) && forallb isxdigit s.
Proof. intros s. unfold ishexstring. rewrite even_Z, all_xdigit_forallb. destruct (Nat.even _); reflexivity. Qed.
Lemma hexstring_ishex : forall data, byte_str data -> len data < 2 ^ 32 -> ishexstring (hexstring data) = true.
Proof.
  intros data Hb Hl. rewrite hexstring_concat by lia. rewrite ishexstring_spec, hex_length.
  apply andb_true_iff. split; [apply Nat.even_spec; now exists (length data)|].
  apply forallb_xdigit. now apply hex_digits.
Qed.

(** ** escapeUnprintable *)
Definition escape_char (c : Z) : str := if eu_escape c then (if c =? 37 then [37; 37] else 37 :: hex_char c) else [c].
Lemma plain_run_spec : forall s, let '(a, b) := plain_run s in
  s = a ++ b /\ concat (map escape_char a) = a /\ match b with [] => True | c :: _ => eu_escape c = true end.
Proof.
  induction s as [|c s IH]; cbn [plain_run]; [auto|]. destruct (eu_escape c) eqn:E; [auto|].
  destruct (plain_run s) as [a b]. destruct IH as (-> & H1 & H2). cbn [map concat]. unfold escape_char at 1.
  rewrite E, H1. auto.
Qed.
Lemma escape_loop_spec : forall fuel s ret, (length s <= fuel)%nat ->
  escape_loop fuel s ret = Ok (ret ++ concat (map escape_char s)).
Proof.
  induction fuel as [|f IH]; intros s ret Hf.
  - destruct s; [|cbn in Hf; lia]. cbn. now rewrite app_nil_r.
  - destruct s as [|x s]; [cbn; now rewrite app_nil_r|]. cbn [escape_loop].
    pose proof (plain_run_spec (x :: s)) as H. destruct (plain_run (x :: s)) as [a b]. destruct H as (Hs & Ha & Hb).
    rewrite Hs. rewrite map_app, concat_app, Ha. apply (f_equal (@length Z)) in Hs. rewrite app_length in Hs. cbn in Hs, Hf.
    destruct b as [|c r].
    + rewrite IH by (cbn; lia). cbn. rewrite !app_nil_r. reflexivity.
    + cbn [length] in Hs. rewrite IH by lia. cbn [map concat]. unfold escape_char at 2. rewrite Hb.
      destruct (c =? 37); unfold hex_char; rewrite <- !app_assoc; reflexivity.
Qed.
Lemma escapeUnprintable_concat : forall s, escapeUnprintable s = Ok (concat (map escape_char s)).
Proof. intros s. unfold escapeUnprintable. now rewrite escape_loop_spec. Qed.

Lemma escape_char_cases : forall c, 0 <= c < 256 ->
  (printable c /\ c <> 37 /\ escape_char c = [c]) \/ (c = 37 /\ escape_char c = [37; 37])
  \/ (~ printable c /\ escape_char c = 37 :: hex_char c).
Proof.
  intros c Hc. unfold escape_char, eu_escape, isprint, isascii, printable.
  destruct (c =? 37) eqn:E; [right; left; rewrite orb_true_r; split; [lia|reflexivity]|].
  destruct (negb ((32 <=? c) && (c <=? 126) && (c <? 128))) eqn:F; cbn [orb].
  - right; right. split; [lia|reflexivity].
  - left. split; [lia|]. split; [lia|reflexivity].
Qed.
Lemma escape_printable : forall s, byte_str s -> Forall printable (concat (map escape_char s)).
Proof.
  induction 1; cbn [map concat]; [constructor|]. apply Forall_app. split; [|assumption].
  destruct (escape_char_cases x H) as [(Hp & _ & ->)|[(-> & ->)|(Hn & ->)]].
  - auto.
  - repeat constructor; unfold printable; lia.
  - destruct (hex_char_facts x H) as (a & b & -> & _ & _ & Ha & Hb & _). constructor; [unfold printable; lia|auto].
Qed.

Lemma unescape_plain : forall c r, c <> 37 -> unescape (c :: r) = c :: unescape r.
Proof.
  intros c r H. destruct c as [|p|p]; try reflexivity.
  do 6 (destruct p as [p|p|]; try reflexivity; try congruence).
Qed.
Lemma unescape_percent : forall r, unescape (37 :: 37 :: r) = 37 :: unescape r.
Proof. intros [|b r]; reflexivity. Qed.
Lemma unescape_hex : forall a b r, a <> 37 -> unescape (37 :: a :: b :: r) = (16 * hex_value a + hex_value b) :: unescape r.
Proof. intros a b r H. cbn [unescape]. replace (a =? 37) with false by lia. reflexivity. Qed.
Lemma unescape_escape : forall s, byte_str s -> unescape (concat (map escape_char s)) = s.
Proof.
  induction 1; cbn [map concat]; [reflexivity|].
  destruct (escape_char_cases x H) as [(Hp & Hn & ->)|[(-> & ->)|(Hn & ->)]]; cbn [app].
  - rewrite unescape_plain by assumption. now f_equal.
  - rewrite unescape_percent. now f_equal.
  - destruct (hex_char_facts x H) as (a & b & -> & _ & _ & _ & _ & Ha & _ & _ & Hv & _). cbn [app].
    rewrite unescape_hex by assumption. rewrite Hv. now f_equal.
Qed.

(** ** toCSVform *)
Definition csv_char (c : Z) : str := if c =? 34 then [34; 34] else [c].
Lemma csv_plain_chars : forall p, ~ In 34 p -> concat (map csv_char p) = p.
Proof.
  induction p as [|x p IH]; intros H; cbn [map concat]; [reflexivity|].
  unfold csv_char at 1. replace (x =? 34) with false by (cbn in H; lia). cbn. rewrite IH; [reflexivity|].
  intros Hi; apply H; now right.
Qed.
Lemma not_occurs_char : forall c s, ~ occurs [c] s -> ~ In c s.
Proof. intros c s H Hi. apply in_split in Hi. destruct Hi as (b & a & ->). apply H. now exists b, a. Qed.
Lemma first_match_char_Some : forall s c k, first_match s [c] = Some k ->
  exists p r, s = p ++ c :: r /\ length p = k /\ ~ In c p.
Proof.
  intros s c k H. destruct (first_match_Some _ _ _ H) as (r & Hr & Hl & Hm). cbn in Hl.
  exists (firstn k s), r. split; [exact Hr|]. split; [rewrite firstn_length; lia|].
  intros Hi. apply in_split in Hi. destruct Hi as (b & a & Hba).
  assert (Hx : s = b ++ [c] ++ (a ++ [c] ++ r)) by (rewrite Hr at 1; rewrite Hba; now rewrite <- app_assoc).
  apply Hm in Hx. apply (f_equal (@length Z)) in Hba. rewrite firstn_length, app_length in Hba. cbn in Hba. lia.
Qed.

Lemma csv_loop_spec : forall fuel done todo, (length todo < fuel)%nat ->
  len done + 2 * len todo + 2 < 2 ^ 31 ->
  csv_loop fuel (done ++ todo) (len done) = Ok (done ++ concat (map csv_char todo)).
Proof.
  induction fuel as [|f IH]; intros done todo Hf Hl; [lia|]. cbn [csv_loop]. unfold string_find.
  rewrite app_length. replace (Z.of_nat (length done + length todo) <? len done) with false by lia.
  rewrite Nat2Z.id. rewrite skipn_app, skipn_all, Nat.sub_diag. cbn [app skipn].
  destruct (first_match todo [34]) as [k|] eqn:F.
  - destruct (first_match_char_Some _ _ _ F) as (p & r & -> & Hk & Hn). rewrite app_length in *. cbn [length] in *.
    rewrite s32_small by lia. replace (0 <=? len done + Z.of_nat k) with true by lia.
    unfold insert. replace (Z.to_nat (len done + Z.of_nat k)) with (length (done ++ p)) by (rewrite app_length; lia).
    rewrite !(app_assoc done p), firstn_app, skipn_app, Nat.sub_diag, firstn_all, skipn_all. cbn [firstn skipn app].
    rewrite app_nil_r.
    replace ((done ++ p) ++ 34 :: 34 :: r) with ((done ++ p ++ [34; 34]) ++ r) by (rewrite <- !app_assoc; reflexivity).
    replace (len done + Z.of_nat k + 2) with (len (done ++ p ++ [34; 34])) by (rewrite !app_length; cbn; lia).
    rewrite IH by (rewrite ?app_length; cbn [length]; lia). f_equal.
    rewrite map_app, concat_app, (csv_plain_chars p) by assumption. cbn [map concat]. unfold csv_char at 2. cbn [Z.eqb].
    rewrite <- !app_assoc. reflexivity.
  - rewrite s32_npos. cbn [Z.leb Z.compare].
    rewrite csv_plain_chars; [reflexivity|]. apply not_occurs_char. now apply first_match_None.
Qed.

Lemma toCSVform_spec : forall s, 2 * len s + 3 < 2 ^ 31 ->
  toCSVform s = Ok (if in_dec Z.eq_dec 44 s then 34 :: concat (map csv_char s) ++ [34] else s).
Proof.
  intros s Hl. unfold toCSVform, string_find. replace (len s <? 0) with false by lia. cbn [Z.to_nat skipn].
  destruct (first_match s [44]) as [k|] eqn:F.
  - destruct (first_match_char_Some _ _ _ F) as (p & r & Hs & Hk & Hn).
    rewrite s32_small by (apply (f_equal (@length Z)) in Hs; rewrite app_length in Hs; lia).
    replace (0 <=? 0 + Z.of_nat k) with true by lia. unfold insert. cbn [Z.to_nat firstn skipn].
    rewrite (csv_loop_spec _ [34] s) by (cbn [length]; lia). cbn [bind].
    destruct (in_dec Z.eq_dec 44 s) as [|Hni]; [reflexivity|]. exfalso. apply Hni. rewrite Hs. apply in_elt.
  - rewrite s32_npos. cbn [Z.leb Z.compare]. apply first_match_None in F. apply not_occurs_char in F.
    destruct (in_dec Z.eq_dec 44 s); [contradiction|reflexivity].
Qed.

Lemma csv_quoted_plain : forall c r, c <> 34 ->
  csv_quoted (c :: r) = match csv_quoted r with Some (v, rest) => Some (c :: v, rest) | None => None end.
Proof.
  intros c r H. destruct c as [|p|p]; try reflexivity.
  do 6 (destruct p as [p|p|]; try reflexivity; try congruence).
Qed.
Lemma csv_quoted_end : forall r, hd_error r <> Some 34 -> csv_quoted (34 :: r) = Some ([], r).
Proof.
  intros [|c r] H; [reflexivity|]. cbn in H. destruct c as [|p|p]; try reflexivity.
  do 6 (destruct p as [p|p|]; try reflexivity; try congruence).
Qed.
Lemma csv_quoted_spec : forall s rest, hd_error rest <> Some 34 ->
  csv_quoted (concat (map csv_char s) ++ 34 :: rest) = Some (s, rest).
Proof.
  induction s as [|c s IH]; intros rest H; cbn [map concat].
  - now apply csv_quoted_end.
  - unfold csv_char at 1. destruct (c =? 34) eqn:E; cbn [app].
    + replace c with 34 by lia. cbn [csv_quoted]. now rewrite IH.
    + rewrite csv_quoted_plain by lia. now rewrite IH.
Qed.
Lemma csv_plain_spec : forall s rest, ~ In 44 s -> ~ In 10 s -> ~ In 13 s ->
  (rest = [] \/ exists c r, rest = c :: r /\ (c = 44 \/ c = 10 \/ c = 13)) -> csv_plain (s ++ rest) = (s, rest).
Proof.
  induction s as [|c s IH]; intros rest H1 H2 H3 Hr; cbn [app].
  - destruct Hr as [->|(c & r & -> & Hc)]; [reflexivity|]. cbn [csv_plain].
    replace ((c =? 44) || (c =? 10) || (c =? 13)) with true by lia. reflexivity.
  - cbn [csv_plain]. cbn in H1, H2, H3. replace ((c =? 44) || (c =? 10) || (c =? 13)) with false by lia.
    rewrite IH; tauto.
Qed.
Lemma csv_read_unquoted : forall t, hd_error t <> Some 34 -> csv_read t = Some (csv_plain t).
Proof.
  intros [|c r] H; [reflexivity|]. cbn in H. destruct c as [|p|p]; try reflexivity.
  do 6 (destruct p as [p|p|]; try reflexivity; try congruence).
Qed.

(** ** Prefix and suffix *)
Lemma str_eqb_eq : forall a b, str_eqb a b = true <-> a = b.
Proof.
  induction a as [|x a IH]; destruct b as [|y b]; cbn; try (split; congruence).
  rewrite andb_true_iff, IH, Z.eqb_eq. split; [intros [-> ->]; reflexivity|intros H; injection H as -> ->; auto].
Qed.

(** ** IPv4 *)
Lemma digits_digit : forall base c r acc, 8 <= base <= 10 -> 48 <= c < 48 + base ->
  digits base (c :: r) acc = digits base r (acc * base + (c - 48)).
Proof.
  intros base c r acc Hb Hc. cbn [digits]. unfold digit_in.
  replace ((48 <=? c) && (c <=? 57)) with true by lia. replace (c - 48 <? base) with true by lia. reflexivity.
Qed.
Definition ends_number (rest : str) : Prop := rest = [] \/ exists r, rest = 46 :: r.
Lemma digits_end : forall base rest acc, 8 <= base <= 16 -> ends_number rest -> digits base rest acc = (acc, rest).
Proof.
  intros base rest acc Hb [->|[r ->]]; [reflexivity|]. cbn [digits]. assert (E : digit_in base 46 = None) by (unfold digit_in; change ((48 <=? 46) && (46 <=? 57)) with false; change ((97 <=? 46) && (46 <=? 102)) with false; change ((65 <=? 46) && (46 <=? 70)) with false; cbv iota zeta; destruct (99 <? base) eqn:?; [lia|reflexivity]).
  now rewrite E.
Qed.
Lemma strtoul0_decimal : forall c r, c <> 48 -> strtoul0 (c :: r) = digits 10 (c :: r) 0.
Proof.
  intros c r H. unfold strtoul0. destruct c as [|p|p]; try reflexivity.
  do 6 (destruct p as [p|p|]; try reflexivity; try congruence).
Qed.
Lemma strtoul0_octet : forall o rest, 0 <= o < 256 -> ends_number rest -> strtoul0 (print_octet o ++ rest) = (o, rest).
Proof.
  intros o rest Ho Hr. unfold print_octet. destruct (o <? 10) eqn:E1.
  - cbn [app]. destruct (Z.eq_dec o 0) as [->|Hn].
    + cbn [Z.add]. destruct Hr as [->|[r ->]]; [reflexivity|]. unfold strtoul0. destruct r as [|y r]; reflexivity.
    + rewrite strtoul0_decimal by lia. rewrite digits_digit by lia. rewrite digits_end by (assumption || lia). f_equal. lia.
  - destruct (o <? 100) eqn:E2; cbn [app].
    + assert (0 < o / 10 < 10) by (Z.to_euclidean_division_equations; lia).
      assert (0 <= o mod 10 < 10) by (Z.to_euclidean_division_equations; lia).
      rewrite strtoul0_decimal by lia. rewrite !digits_digit by lia. rewrite digits_end by (assumption || lia). f_equal.
      clear - H. Z.to_euclidean_division_equations; lia.
    + assert (0 < o / 100 < 10) by (Z.to_euclidean_division_equations; lia).
      assert (0 <= o / 10 mod 10 < 10) by (clear; Z.to_euclidean_division_equations; lia).
      assert (0 <= o mod 10 < 10) by (Z.to_euclidean_division_equations; lia).
      rewrite strtoul0_decimal by lia. rewrite !digits_digit by lia. rewrite digits_end by (assumption || lia). f_equal.
      clear - Ho. Z.to_euclidean_division_equations; lia.
Qed.
Lemma print_octet_digit : forall o, 0 <= o < 256 -> exists c r, print_octet o = c :: r /\ 48 <= c <= 57.
Proof.
  intros o Ho. unfold print_octet. destruct (o <? 10) eqn:E1; [eexists _, _; split; [reflexivity|lia]|].
  destruct (o <? 100) eqn:E2; (eexists _, _; split; [reflexivity|]); Z.to_euclidean_division_equations; lia.
Qed.
Lemma inet_loop_step : forall f o rest bytes, 0 <= o < 256 -> ends_number rest ->
  inet_loop (S f) (print_octet o ++ rest) bytes =
  match rest with
  | 46 :: r => if (2 <? Z.of_nat (length bytes)) || (255 <? o) then None else inet_loop f r (bytes ++ [o])
  | _ =>
      if match rest with [] => true | d :: _ => isspace d || (d =? 0) end then
        let k := Z.of_nat (length bytes) in
        if 2 ^ (32 - 8 * k) - 1 <? o then None
        else Some (fold_left (fun a b => a * 256 + b) bytes 0 * 2 ^ (32 - 8 * k) + o)
      else None
  end.
Proof.
  intros f o rest bytes Ho Hr. destruct (print_octet_digit o Ho) as (c & t & Hp & Hc).
  pose proof (strtoul0_octet o rest Ho Hr) as Hs. rewrite Hp in *. cbn [app] in *. cbn [inet_loop].
  replace (negb ((48 <=? c) && (c <=? 57))) with false by lia. rewrite Hs.
  replace (4294967295 <? o) with false by lia. reflexivity.
Qed.
Lemma inet_addr_quad : forall a b c d, 0 <= a < 256 -> 0 <= b < 256 -> 0 <= c < 256 -> 0 <= d < 256 ->
  inet_addr (print_octet a ++ [46] ++ print_octet b ++ [46] ++ print_octet c ++ [46] ++ print_octet d)
  = Some (((a * 256 + b) * 256 + c) * 256 + d).
Proof.
  intros a b c d Ha Hb Hc Hd. unfold inet_addr.
  assert (Hf : exists f, S (length (print_octet a ++ [46] ++ print_octet b ++ [46] ++ print_octet c ++ [46] ++ print_octet d)) = S (S (S (S f)))).
  { assert (Hs : forall n, (3 <= n)%nat -> exists f, S n = S (S (S (S f)))) by (intros n Hn; exists (n - 3)%nat; lia).
    apply Hs. rewrite !app_length. cbn [length]. lia. }
  destruct Hf as [f ->]. cbn [app].
  rewrite inet_loop_step; [|lia|right; eauto]. replace (_ || _) with false by (cbn; lia).
  rewrite inet_loop_step; [|lia|right; eauto]. replace (_ || _) with false by (cbn; lia).
  rewrite inet_loop_step; [|lia|right; eauto]. replace (_ || _) with false by (cbn; lia).
  rewrite <- (app_nil_r (print_octet d)). rewrite inet_loop_step; [|lia|now left].
  cbn [app length Z.of_nat Pos.of_succ_nat Pos.succ Z.mul Z.sub Z.add Z.opp Z.pos_sub fold_left].
  change (2 ^ Z.pos_sub 32 (8 * 3)) with 256. destruct (256 - 1 <? d) eqn:E; [lia|reflexivity].
Qed.
Lemma ipv4_inet : forall v, 0 <= v < 2 ^ 32 -> inet_addr (ipv4tostring v) = Some v.
Proof.
  intros v Hv. unfold ipv4tostring.
  change 255 with (Z.ones 8). rewrite !Z.land_ones, !Z.shiftr_div_pow2 by lia.
  rewrite inet_addr_quad by (apply Z.mod_pos_bound; lia).
  change (2 ^ 24) with 16777216. change (2 ^ 16) with 65536. change (2 ^ 8) with 256. change (2 ^ 0) with 1.
  change (2 ^ 32) with 4294967296 in Hv.
  f_equal. Z.to_euclidean_division_equations. lia.
Qed.
