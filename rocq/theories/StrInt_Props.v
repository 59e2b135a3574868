(** C70: converting text to integers. C71: the number of processors. *)
From Coq Require Import List ZArith Bool Lia ZifyBool.
From Verif Require Import Common StringUtil_Model StringUtil_Proofs StrInt_Model StrInt_Spec StrInt_Proofs.
Import ListNotations.
Local Open Scope Z_scope.

(** Signed types: the result is [v] if and only if the text is a decimal numeral for [v], a
    value of the type. *)
Theorem C70_decimal_signed : forall t s v, is_signed t = true -> 8 < bits t ->
  stringToInteger t s 10 = Ok v <-> integer s v /\ tmin t <= v <= tmax t.
Proof. intros. now apply lexical_signed. Qed.
Print Assumptions C70_decimal_signed.
(** Unsigned types: the same for text without a minus sign; with one the result is taken
    modulo 2^bits. *)
Theorem C70_decimal_unsigned_partial : forall t s v, is_signed t = false -> 8 < bits t ->
  stringToInteger t s 10 = Ok v <->
  (integer s v /\ hd 0 s <> 45 /\ v <= tmax t \/ exists r n, s = 45 :: r /\ natural 10 r n /\ n <= tmax t /\ v = - n mod 2 ^ bits t).
Proof. intros. now apply lexical_unsigned. Qed.
Print Assumptions C70_decimal_unsigned_partial.
(** In base 10 there is always a result or an assertion. *)
Theorem C70_decimal_total : forall t s, (exists v, stringToInteger t s 10 = Ok v) \/ stringToInteger t s 10 = Abort.
Proof. intros. apply lexical_abort. Qed.
Print Assumptions C70_decimal_total.
Example C70_decimal_nonvacuous : let int32 := mk_itype true 32 in
  stringToInteger int32 [45; 50; 49; 52; 55; 52; 56; 51; 54; 52; 56] 10 = Ok (- 2147483648) /\
  stringToInteger int32 [50; 49; 52; 55; 52; 56; 51; 54; 52; 56] 10 = Abort /\ stringToInteger int32 [49; 32] 10 = Abort /\
  stringToInteger (mk_itype false 16) [43; 54; 53; 53; 51; 53] 10 = Ok 65535 /\ stringToInteger (mk_itype false 16) [54; 53; 53; 51; 54] 10 = Abort.
Proof. repeat split; reflexivity. Qed.
(** "bails out if the value does not fit" is false of negative numbers and unsigned types:
    -1 gives the largest value. *)
Theorem C70_minus_refuted : forall t, is_signed t = false -> 8 < bits t -> integer [45; 49] (-1) /\ -1 < tmin t /\ stringToInteger t [45; 49] 10 = Ok (tmax t).
Proof.
  intros t S B. assert (N : natural 10 [49] 1) by (split; [discriminate|]; exists [1]; split; [constructor; [unfold is_digit; lia|constructor]|reflexivity]).
  split; [right; right; exists [49], 1; auto|]. split; [unfold tmin; rewrite S; lia|]. apply lexical_unsigned; [assumption|assumption|]. right. exists [49], 1. split; [reflexivity|]. split; [exact N|].
  destruct (limits t) as (L0 & L1 & L2); [lia|]. unfold tmax in *. rewrite S in *. assert (2 <= 2 ^ (bits t - 1)) by (apply (Z.pow_le_mono_r 2 1); lia). split; [lia|].
  rewrite Z.mod_opp_l_nz; rewrite ?Z.mod_small; lia.
Qed.
Print Assumptions C70_minus_refuted.
Example C70_minus_refuted_nonvacuous : stringToInteger (mk_itype false 64) [45; 49] 10 = Ok 18446744073709551615.
Proof. reflexivity. Qed.
(** For the character types the result is the code of the character, not the number. *)
Theorem C70_char_refuted : forall sgn c d, is_digit 10 c d ->
  stringToInteger (mk_itype sgn 8) [c] 10 = Ok (48 + d) /\ forall c' r, stringToInteger (mk_itype sgn 8) (c :: c' :: r) 10 = Abort.
Proof.
  intros sgn c d H. unfold is_digit in H. split; [|reflexivity]. assert (E : c = 48 + d) by lia. subst c.
  unfold stringToInteger, lexical_cast. replace (10 =? 10) with true by reflexivity. cbn [bits is_signed]. replace (8 =? 8) with true by reflexivity. replace (128 <=? 48 + d) with false by lia. now rewrite andb_false_r.
Qed.
Print Assumptions C70_char_refuted.
Example C70_char_refuted_nonvacuous : stringToInteger (mk_itype false 8) [53] 10 = Ok 53 /\ stringToInteger (mk_itype false 8) [49; 50] 10 = Abort.
Proof. split; reflexivity. Qed.
(** Any base but 8, 10 and 16 is refused. *)
Theorem C70_base : forall t s base, base <> 8 -> base <> 10 -> base <> 16 -> stringToInteger t s base = Abort.
Proof. intros t s base H1 H2 H3. unfold stringToInteger. replace (base =? 10) with false by lia. replace ((base =? 16) || (base =? 8)) with false by lia. reflexivity. Qed.
Print Assumptions C70_base.

Definition spaces (ws : list Z) : Prop := Forall (fun c => c = 32 \/ 9 <= c <= 13) ws.
Lemma spaces_isspace : forall ws, spaces ws -> Forall (fun c => isspace c = true) ws.
Proof. intros ws F. eapply Forall_impl; [|exact F]. intros c H. unfold isspace. cbn beta in H. lia. Qed.
Lemma digit_not_space : forall base c d, is_digit base c d -> isspace c = false /\ c <> 43 /\ c <> 45.
Proof. intros base c d H. unfold is_digit, isspace in *. lia. Qed.
Lemma digit_hd : forall base s n, natural base s n -> exists c r d, s = c :: r /\ is_digit base c d.
Proof. intros base s n (Hne & ds & F & _). destruct F as [|c d r ds H F]; [congruence|]. eauto. Qed.
(** Bases 8 and 16: a numeral, after white space and with or without a sign, is converted
    when its value fits and refused otherwise. *)
Theorem C70_stream : forall t base ws s n, base = 8 \/ base = 16 -> 8 < bits t -> spaces ws -> natural base s n ->
  stringToInteger t (ws ++ s) base = (if n <=? tmax t then Ok n else Abort) /\
  stringToInteger t (ws ++ 43 :: s) base = (if n <=? tmax t then Ok n else Abort) /\
  (is_signed t = true -> stringToInteger t (ws ++ 45 :: s) base = if tmin t <=? - n then Ok (- n) else Abort).
Proof.
  intros t base ws s n B Bt W N. unfold stringToInteger. replace (base =? 10) with false by lia. replace ((base =? 16) || (base =? 8)) with true by lia.
  apply spaces_isspace in W. unfold read_stream. cbv zeta. replace (bits t =? 8) with false by lia.
  assert (Q : forall limit, stream_number base limit s = if n <=? limit then Ok n else Abort).
  { intros limit. rewrite <- (app_nil_r s) at 1. apply stream_number_spec; [assumption|assumption|discriminate|]. split; discriminate. }
  destruct (digit_hd _ _ _ N) as (c & r & d & Es & Hd). destruct (digit_not_space _ _ _ Hd) as (Hs & H1 & H2). split; [|split].
  - rewrite skip_space_app; [|assumption|subst s; intros ? E; now injection E as <-]. rewrite <- Q. subst s. replace (c =? 45) with false by lia. now replace (c =? 43) with false by lia.
  - rewrite skip_space_app; [|assumption|intros ? E; now injection E as <-]. rewrite <- Q. reflexivity.
  - intros S. rewrite skip_space_app; [|assumption|intros ? E; now injection E as <-]. replace (45 =? 45) with true by reflexivity. rewrite S, Q. unfold tmin. rewrite S.
    replace (- 2 ^ (bits t - 1) <=? - n) with (n <=? 2 ^ (bits t - 1)) by lia. now destruct (n <=? 2 ^ (bits t - 1)).
Qed.
Print Assumptions C70_stream.
(** In base 16 the digits may follow 0x. *)
Theorem C70_stream_0x : forall t ws x s n, x = 120 \/ x = 88 -> 8 < bits t -> spaces ws -> natural 16 s n ->
  stringToInteger t (ws ++ 48 :: x :: s) 16 = if n <=? tmax t then Ok n else Abort.
Proof.
  intros t ws x s n X Bt W N. unfold stringToInteger. replace (16 =? 10) with false by lia. replace ((16 =? 16) || (16 =? 8)) with true by lia.
  apply spaces_isspace in W. unfold read_stream. cbv zeta. replace (bits t =? 8) with false by lia.
  rewrite skip_space_app; [|assumption|intros ? E; now injection E as <-]. replace (48 =? 45) with false by reflexivity. replace (48 =? 43) with false by reflexivity.
  rewrite <- (app_nil_r s). apply stream_number_0x; [assumption|discriminate|assumption].
Qed.
Print Assumptions C70_stream_0x.
(** Text that does not begin with a digit, after white space and a sign, is refused. *)
Theorem C70_stream_refuses : forall t base ws s, base = 8 \/ base = 16 -> 8 < bits t -> spaces ws ->
  (forall c, hd_error s = Some c -> c <> 43 /\ c <> 45 /\ c <> 32 /\ ~ 9 <= c <= 13 /\ forall d, ~ is_digit base c d) ->
  stringToInteger t (ws ++ s) base = Abort /\ stringToInteger t (ws ++ 43 :: s) base = Abort /\ stringToInteger t (ws ++ 45 :: s) base = Abort.
Proof.
  intros t base ws s B Bt W H. unfold stringToInteger. replace (base =? 10) with false by lia. replace ((base =? 16) || (base =? 8)) with true by lia.
  apply spaces_isspace in W. unfold read_stream. cbv zeta. replace (bits t =? 8) with false by lia.
  assert (Q : forall limit, stream_number base limit s = Abort).
  { intros limit. unfold stream_number. destruct s as [|c r]; [reflexivity|]. destruct (H c eq_refl) as (_ & _ & _ & _ & Hd). assert (Ec : digit_of base c = None) by (apply digit_none; [lia|exact Hd]).
    assert (E : skip_0x base (c :: r) = c :: r). { destruct r as [|x r]; [reflexivity|]. cbn [skip_0x]. destruct ((base =? 16) && (c =? 48) && ((x =? 120) || (x =? 88))) eqn:E; [|reflexivity]. exfalso. apply (Hd 0). unfold is_digit. lia. }
    rewrite E. cbv zeta. now rewrite Ec. }
  split; [|split].
  - destruct s as [|c r].
    + rewrite skip_space_app; [reflexivity|assumption|discriminate].
    + destruct (H c eq_refl) as (H1 & H2 & H3 & H4 & Hd). rewrite skip_space_app; [|assumption|intros ? E; injection E as <-; unfold isspace; lia]. replace (c =? 45) with false by lia. replace (c =? 43) with false by lia. apply Q.
  - rewrite skip_space_app; [|assumption|intros ? E; now injection E as <-]. apply Q.
  - rewrite skip_space_app; [|assumption|intros ? E; now injection E as <-]. replace (45 =? 45) with true by reflexivity. rewrite !Q. now destruct (is_signed t).
Qed.
Print Assumptions C70_stream_refuses.
(** "bails out if the string isn't valid" is false in bases 8 and 16: whatever follows the
    digits is ignored. *)
Theorem C70_garbage_refuted : forall t base s n rest, base = 8 \/ base = 16 -> 8 < bits t -> natural base s n -> n <= tmax t ->
  (forall c d, hd_error rest = Some c -> ~ is_digit base c d) -> (s = [48] -> hd_error rest <> Some 120 /\ hd_error rest <> Some 88) ->
  stringToInteger t (s ++ rest) base = Ok n.
Proof.
  intros t base s n rest B Bt N L H H0. unfold stringToInteger. replace (base =? 10) with false by lia. replace ((base =? 16) || (base =? 8)) with true by lia.
  unfold read_stream. cbv zeta. replace (bits t =? 8) with false by lia. pose proof (stream_number_spec base (tmax t) s rest n B N H (fun _ => H0)) as Q.
  destruct (digit_hd _ _ _ N) as (c & r & d & Es & Hd). destruct (digit_not_space _ _ _ Hd) as (Hs & H1 & H2). subst s.
  change ((c :: r) ++ rest) with ([] ++ (c :: r ++ rest)). rewrite skip_space_app; [|constructor|intros ? E; now injection E as <-]. replace (c =? 45) with false by lia. replace (c =? 43) with false by lia.
  change (c :: r ++ rest) with ((c :: r) ++ rest). rewrite Q. replace (n <=? tmax t) with true by lia. reflexivity.
Qed.
Print Assumptions C70_garbage_refuted.
Example C70_stream_nonvacuous : let int32 := mk_itype true 32 in
  stringToInteger int32 [32; 45; 56; 48; 48; 48; 48; 48; 48; 48] 16 = Ok (- 2147483648) /\ stringToInteger int32 [56; 48; 48; 48; 48; 48; 48; 48] 16 = Abort /\
  stringToInteger int32 [48; 120; 49; 70; 102] 16 = Ok 511 /\ stringToInteger int32 [55; 55] 8 = Ok 63 /\ stringToInteger int32 [56] 8 = Abort /\ stringToInteger int32 [48; 120] 16 = Abort /\
  stringToInteger int32 [49; 50; 33; 33] 16 = Ok 18.
Proof. repeat split; reflexivity. Qed.

(** ** C71 *)
(** Once known, the number of processors never changes. *)
Theorem C71_stable : forall env file n cache env' file', getNCpus 0 env file = Ok (n, cache) -> getNCpus cache env' file' = Ok (n, cache).
Proof.
  intros env file n cache env' file' E. unfold getNCpus in *. replace (0 =? 0) with true in E by reflexivity.
  match type of E with (let! _ := bind ?m _ in _) = _ => destruct m as [k| | |] eqn:Em end; cbn [bind] in E; try discriminate.
  destruct (0 <? k) eqn:Ek; cbn [invariant bind] in E; [|discriminate]. rewrite Ek in E. cbn [invariant bind] in E. injection E as <- <-.
  replace (k =? 0) with false by lia. cbn [bind]. rewrite Ek. reflexivity.
Qed.
Print Assumptions C71_stable.
(** It is the number of lines of the file that begin with "processor\t: "; none is refused. *)
Theorem C71_count : forall file (k := Z.of_nat (length (filter (fun l => prefixequal l processor) (lines file)))), len file < 2 ^ 31 - 1 ->
  getNCpus 0 None file = if 0 <? k then Ok (k, k) else Abort.
Proof.
  intros file k L. unfold getNCpus. replace (0 =? 0) with true by reflexivity. rewrite count_lines_spec by lia. cbn [bind].
  assert (E : 0 + heads processor (match lines file with l :: ls => (rev [] ++ l) :: ls | [] => [] end) = k) by (unfold heads, k; destruct (lines file); reflexivity).
  rewrite E. assert (K : k <= len file + 1).
  { unfold k. assert (Z.of_nat (length (lines file)) <= len file + 1).
    { clear. induction file as [|c r IH]; [cbn; lia|]. cbn [lines length]. destruct (c =? 10); [cbn [length]; lia|]. destruct (lines r); cbn [length] in *; lia. }
    assert (F : forall (l : list (list Z)), (length (filter (fun l => prefixequal l processor) l) <= length l)%nat) by (induction l as [|a l IH]; cbn; [lia|]; destruct (prefixequal a processor); cbn; lia). specialize (F (lines file)). lia. }
  destruct (0 <? k) eqn:Ek; cbn [invariant bind]; [|reflexivity]. rewrite Ek. cbn [invariant bind]. f_equal. f_equal. apply s32_small; lia.
Qed.
Print Assumptions C71_count.
Lemma C71_lines : forall l p, prefixequal l p = true <-> exists r, l = p ++ r.
Proof. exact prefixequal_iff. Qed.
(** NUMBER_OF_PROCESSORS comes first. *)
Theorem C71_environment : forall s n file, natural 10 s n -> 0 < n < 2 ^ 31 -> getNCpus 0 (Some s) file = Ok (n, n).
Proof.
  intros s n file N B. assert (E : stringToInteger uint32_type s 10 = Ok n).
  { apply lexical_unsigned; [reflexivity|cbn; lia|]. left. split; [now left|]. destruct s as [|c r]; [now destruct N|]. apply natural_head in N. cbn [hd tmax uint32_type is_signed bits]. lia. }
  unfold getNCpus. replace (0 =? 0) with true by reflexivity. rewrite E. cbn [bind]. assert (P : (0 <? n) = true) by lia. rewrite P. cbn [invariant bind]. rewrite P. cbn [invariant bind]. f_equal. f_equal. apply s32_small; lia.
Qed.
Print Assumptions C71_environment.
(** But NUMBER_OF_PROCESSORS=-1 is accepted, and the result is -1, the value for unknown. *)
Theorem C71_positive_refuted : forall file, exists cache, getNCpus 0 (Some [45; 49]) file = Ok (-1, cache).
Proof. intros file. exists 4294967295. reflexivity. Qed.
Print Assumptions C71_positive_refuted.
Example C71_nonvacuous : getNCpus 0 None (processor ++ [48; 10; 120; 10; 10] ++ processor ++ [49; 10] ++ 32 :: processor) = Ok (2, 2) /\
  getNCpus 0 (Some [49; 50]) [] = Ok (12, 12) /\ getNCpus 0 None [10] = Abort.
Proof. repeat split; reflexivity. Qed.
