(** Properties C20-C25, C59 and C60 of StringUtil. *)
From Coq Require Import List ZArith Bool Lia ZifyBool ZifyNat.
From Verif Require Import Common ListFacts StringUtil_Spec StringUtil_Model StringUtil_Proofs.
Import ListNotations.
Local Open Scope Z_scope.

(** ** C20: split and join are inverse *)
Theorem C20_split_join : forall s sep, sep <> [] -> len s + len sep < 2 ^ 31 ->
  exists parts, split s sep = Ok parts /\ parts <> []
    /\ join sep parts = s /\ Forall (fun p => ~ occurs sep p) parts.
Proof.
  intros s sep Hs Hl. rewrite split_pieces by assumption. eexists. split; [reflexivity|].
  apply pieces_join; [destruct sep; [congruence|cbn; lia]|lia].
Qed.
Theorem C20_join_split : forall parts c, parts <> [] -> Forall (fun p => ~ In c p) parts ->
  len (join [c] parts) + 1 < 2 ^ 31 -> split (join [c] parts) [c] = Ok parts.
Proof.
  intros parts c Hne Hall Hl. rewrite split_pieces; [|cbn [length]; lia|discriminate].
  rewrite pieces_of_join; [reflexivity|assumption|assumption|lia].
Qed.
(** join is concatenation with the separator between neighbours. *)
Theorem C20_join : forall sep a b rest,
  join sep [] = [] /\ join sep [a] = a /\ join sep (a :: b :: rest) = a ++ sep ++ join sep (b :: rest).
Proof.
  intros. split; [reflexivity|]. split; [rewrite join_cons; apply app_nil_r|apply join_cons2].
Qed.
(** An empty separator is reported. *)
Theorem C20_empty_separator : forall s, split s [] = Abort.
Proof. reflexivity. Qed.
Example C20_nonvacuous : split [97; 44; 44; 98; 99; 44] [44] = Ok [[97]; []; [98; 99]; []]
  /\ split [97; 97; 97; 98] [97; 97] = Ok [[]; [97; 98]].
Proof. split; reflexivity. Qed.
Print Assumptions C20_split_join.
Print Assumptions C20_join_split.

(** ** C21: hexstring and hex2raw *)
Theorem C21_hex_round_trip : forall data, byte_str data -> 2 * len data < 2 ^ 32 ->
  hex2raw (hexstring data) = Ok data
  /\ length (hexstring data) = (2 * length data)%nat
  /\ Forall (fun c => is_hex_digit c /\ ~ (65 <= c <= 90)) (hexstring data)
  /\ ishexstring (hexstring data) = true.
Proof.
  intros data Hb Hl. split; [now apply hex2raw_hexstring|]. split; [|split].
  - rewrite hexstring_concat by lia. apply hex_length.
  - rewrite hexstring_concat by lia. rewrite Forall_forall. intros c Hc. split.
    + revert c Hc. rewrite <- Forall_forall. now apply hex_digits.
    + revert c Hc. rewrite <- Forall_forall. now apply hex_lower.
  - apply hexstring_ishex; [assumption|lia].
Qed.
(** hex2raw on any text: pairs of digits of either case are read, anything else
    is reported. *)
Theorem C21_hex2raw_reads : forall s, len s < 2 ^ 32 ->
  (Nat.even (length s) = true /\ Forall is_hex_digit s ->
     exists out, hex2raw s = Ok out /\ (length s = 2 * length out)%nat
       /\ forall i a b, nth_error s (2 * i) = Some a -> nth_error s (2 * i + 1) = Some b ->
            nth_error out i = Some (16 * hex_value a + hex_value b))
  /\ (~ (Nat.even (length s) = true /\ Forall is_hex_digit s) -> hex2raw s = Abort).
Proof.
  intros s Hl. destruct (Nat.even (length s)) eqn:He.
  - rewrite hex2raw_even, hex2raw_loop_spec by assumption. split.
    + intros [_ Hd]. apply forallb_xdigit in Hd. rewrite Hd. eexists. split; [reflexivity|].
      rewrite pair_up_short by assumption. split.
      * apply Nat.even_spec in He. destruct He as [k ->]. now rewrite Nat.div2_double.
      * clear Hl Hd. revert s He. apply (even_ind (fun s => forall i a b, nth_error s (2 * i) = Some a ->
          nth_error s (2 * i + 1) = Some b -> nth_error (pair_up s) i = Some (16 * hex_value a + hex_value b))).
        -- intros i a b H. destruct (2 * i)%nat; discriminate.
        -- intros x y r IH [|i] a b Ha Hb.
           ++ cbn in Ha, Hb. injection Ha as ->. injection Hb as ->. reflexivity.
           ++ replace (2 * S i)%nat with (S (S (2 * i))) in Ha by lia.
              replace (2 * S i + 1)%nat with (S (S (2 * i + 1))) in Hb by lia.
              cbn [nth_error pair_up] in *. now apply IH.
    + intros H. destruct (forallb isxdigit s) eqn:F; [|reflexivity]. apply forallb_xdigit in F. tauto.
  - split; [intros [? _]; discriminate|]. intros _. unfold hex2raw, u32. cbv zeta.
    rewrite (Z.mod_small (len s) (2 ^ 32)) by lia. rewrite even_Z, He. reflexivity.
Qed.
Example C21_nonvacuous : hexstring [0; 171; 255] = [48; 48; 97; 98; 102; 102] /\ hex2raw [65; 98] = Ok [171].
Proof. split; reflexivity. Qed.
Print Assumptions C21_hex_round_trip.
Print Assumptions C21_hex2raw_reads.

(** ** C22: maybehex2raw undoes maybehexstring, when it does *)
(** Exactly the non-empty printable strings that themselves look like hex are not
    recovered. *)
Theorem C22_maybehex_partial : forall s, byte_str s -> 2 * len s < 2 ^ 32 ->
  (maybehex2raw (maybehexstring s) = Ok s <->
   ~ (s <> [] /\ Nat.even (length s) = true /\ Forall is_hex_digit s)).
Proof.
  intros s Hb Hl. unfold maybehexstring, maybehex2raw. destruct (all_printable s) eqn:P.
  - rewrite ishexstring_spec. destruct (Nat.even (length s)) eqn:He; cbn [andb]; [|split; [intros _ (_ & H & _); discriminate|reflexivity]].
    destruct (forallb isxdigit s) eqn:F.
    + rewrite hex2raw_even, hex2raw_loop_spec, F by (assumption || lia).
      split.
      * intros H. injection H as H. intros (Hne & _ & _). apply Hne.
        apply (f_equal (@length Z)) in H. rewrite pair_up_short in H by assumption.
        destruct s as [|a [|b r]]; [reflexivity|discriminate|]. cbn [length Nat.div2] in H.
        assert (length r / 2 <= length r)%nat by (apply Nat.div_le_upper_bound; lia).
        rewrite Nat.div2_div in H. lia.
      * intros H. destruct s as [|a r]; [reflexivity|]. exfalso. apply H. split; [discriminate|]. split; [reflexivity|].
        now apply forallb_xdigit.
    + split; [|reflexivity]. intros _ (_ & _ & H). apply forallb_xdigit in H. congruence.
  - rewrite hexstring_ishex, hex2raw_hexstring by (assumption || lia). split; [|reflexivity].
    intros _ (_ & _ & H). assert (Forall printable s); [|rewrite <- all_printable_iff in *; congruence].
    eapply Forall_impl; [|exact H]. unfold is_hex_digit, printable. intros; lia.
Qed.
(** What the encoding always gives: printable text, either the input itself or
    its hex form. *)
Theorem C22_maybehexstring_printable : forall s, byte_str s -> len s < 2 ^ 32 ->
  Forall printable (maybehexstring s)
  /\ (Forall printable s -> maybehexstring s = s) /\ (~ Forall printable s -> maybehexstring s = hexstring s).
Proof.
  intros s Hb Hl. unfold maybehexstring. destruct (all_printable s) eqn:P.
  - apply all_printable_iff in P. tauto.
  - assert (Hn : ~ Forall printable s) by (rewrite <- all_printable_iff, P; discriminate). split; [|tauto].
    rewrite hexstring_concat by lia. eapply Forall_impl; [|apply hex_digits; assumption].
    unfold is_hex_digit, printable. intros; lia.
Qed.
(** "ab" comes back as one byte. *)
Theorem C22_maybehex_refuted : exists s, byte_str s /\ Forall printable s
  /\ maybehex2raw (maybehexstring s) = Ok [171] /\ s <> [171].
Proof. exists [97; 98]. repeat split; try (repeat constructor; unfold printable; lia). discriminate. Qed.
(** Two different inputs with the same maybehexstring. *)
Theorem C22_not_injective_refuted : exists s t, byte_str s /\ byte_str t /\ s <> t /\ maybehexstring s = maybehexstring t.
Proof. exists [1], [48; 49]. repeat split; try (repeat constructor; lia). discriminate. Qed.
Example C22_nonvacuous : maybehex2raw (maybehexstring [104; 105; 33]) = Ok [104; 105; 33]
  /\ maybehexstring [7; 104] = [48; 55; 54; 56] /\ maybehex2raw (maybehexstring [7; 104]) = Ok [7; 104].
Proof. repeat split; reflexivity. Qed.
Print Assumptions C22_maybehex_partial.

(** ** C23: escapeUnprintable *)
Theorem C23_escapeUnprintable : forall s, byte_str s ->
  exists out, escapeUnprintable s = Ok out /\ Forall printable out /\ unescape out = s.
Proof.
  intros s Hb. rewrite escapeUnprintable_concat. eexists. split; [reflexivity|].
  split; [now apply escape_printable|now apply unescape_escape].
Qed.
Theorem C23_injective : forall s t, byte_str s -> byte_str t -> escapeUnprintable s = escapeUnprintable t -> s = t.
Proof.
  intros s t Hs Ht. rewrite !escapeUnprintable_concat. intros H. injection H as H.
  rewrite <- (unescape_escape s), <- (unescape_escape t) by assumption. now rewrite H.
Qed.
(** Printable text without percent signs is untouched. *)
Theorem C23_plain_unchanged : forall s, Forall (fun c => printable c /\ c <> 37) s -> escapeUnprintable s = Ok s.
Proof.
  intros s H. rewrite escapeUnprintable_concat. f_equal. induction H as [|c s [Hp Hn] H IH]; cbn [map concat]; [reflexivity|].
  rewrite IH. destruct (escape_char_cases c) as [(_ & _ & ->)|[(? & _)|(? & _)]]; try tauto. unfold printable in Hp; lia.
Qed.
Example C23_nonvacuous : escapeUnprintable [97; 37; 10; 255] = Ok [97; 37; 37; 37; 48; 97; 37; 102; 102].
Proof. reflexivity. Qed.
Print Assumptions C23_escapeUnprintable.
Print Assumptions C23_injective.

(** ** C24: mysqlEscape *)
(** Inside a literal opened by either quote, MySQL reads back exactly the data
    and the literal ends at the caller's closing quote. *)
Theorem C24_mysqlEscape : forall data quote rest, len data < 2 ^ 32 -> (quote = 34 \/ quote = 39) ->
  hd_error rest <> Some quote ->
  mysql_read quote (mysqlEscape data ++ quote :: rest) = Some (data, rest).
Proof. intros data quote rest Hl Hq Hr. rewrite mysqlEscape_concat by assumption. now apply mysql_read_escaped. Qed.
(** The escaped text has no NUL, newline, carriage return or control-Z. *)
Theorem C24_no_special : forall data, len data < 2 ^ 32 ->
  Forall (fun c => c <> 0 /\ c <> 10 /\ c <> 13 /\ c <> 26) (mysqlEscape data).
Proof. intros data Hl. rewrite mysqlEscape_concat by assumption. apply mysql_no_special. Qed.
Example C24_nonvacuous : mysqlEscape [39; 32; 79; 82; 0; 92] = [92; 39; 32; 79; 82; 92; 48; 92; 92]
  /\ mysql_read 39 (mysqlEscape [39; 32; 79; 82; 0; 92] ++ 39 :: [59]) = Some ([39; 32; 79; 82; 0; 92], [59]).
Proof. split; reflexivity. Qed.
Print Assumptions C24_mysqlEscape.
Print Assumptions C24_no_special.

(** ** C25: IPv4 *)
(** Missing: the one address 255.255.255.255, see C25_broadcast_refuted. *)
Theorem C25_ipv4_round_trip_partial : forall v, 0 <= v < 2 ^ 32 -> v <> 2 ^ 32 - 1 -> stringtoipv4 (ipv4tostring v) = Ok v.
Proof.
  intros v Hv Hn. unfold stringtoipv4. rewrite ipv4_inet by assumption. cbv zeta iota.
  unfold invariant. replace (negb (v =? 4294967295)) with true by lia. reflexivity.
Qed.
Theorem C25_broadcast_refuted : exists v, 0 <= v < 2 ^ 32 /\ stringtoipv4 (ipv4tostring v) = Abort.
Proof. exists (2 ^ 32 - 1). split; [lia|vm_compute; reflexivity]. Qed.
Theorem C25_ipv4_injective : forall v w, 0 <= v < 2 ^ 32 -> 0 <= w < 2 ^ 32 -> ipv4tostring v = ipv4tostring w -> v = w.
Proof.
  intros v w Hv Hw H. apply ipv4_inet in Hv. apply ipv4_inet in Hw. rewrite H in Hv. congruence.
Qed.
(** The printed form is the four octets, most significant first. *)
Theorem C25_dotted_quad : forall a b c d, 0 <= a < 256 -> 0 <= b < 256 -> 0 <= c < 256 -> 0 <= d < 256 ->
  ipv4tostring (((a * 256 + b) * 256 + c) * 256 + d)
  = print_octet a ++ [46] ++ print_octet b ++ [46] ++ print_octet c ++ [46] ++ print_octet d.
Proof.
  intros a b c d Ha Hb Hc Hd. unfold ipv4tostring. change 255 with (Z.ones 8).
  rewrite !Z.land_ones, !Z.shiftr_div_pow2 by lia.
  change (2 ^ 24) with 16777216. change (2 ^ 16) with 65536. change (2 ^ 8) with 256. change (2 ^ 0) with 1.
  f_equal; [|f_equal; f_equal; [|f_equal; f_equal; [|f_equal]]]; f_equal; Z.to_euclidean_division_equations; lia.
Qed.
Example C25_nonvacuous : stringtoipv4 (ipv4tostring (((192 * 256 + 168) * 256 + 0) * 256 + 17)) = Ok 3232235537
  /\ ipv4tostring 3232235537 = [49; 57; 50; 46; 49; 54; 56; 46; 48; 46; 49; 55].
Proof. split; vm_compute; reflexivity. Qed.
Print Assumptions C25_ipv4_round_trip_partial.
Print Assumptions C25_ipv4_injective.

(** ** C59: toCSVform *)
(** A CSV reader gets the string back, when the string has a comma, or has no
    leading quote and no line break. *)
Theorem C59_csv_round_trip_partial : forall s rest, 2 * len s + 3 < 2 ^ 31 ->
  (rest = [] \/ exists c r, rest = c :: r /\ (c = 44 \/ c = 10 \/ c = 13)) ->
  (In 44 s \/ (hd_error s <> Some 34 /\ ~ In 10 s /\ ~ In 13 s)) ->
  exists out, toCSVform s = Ok out /\ csv_read (out ++ rest) = Some (s, rest).
Proof.
  intros s rest Hl Hr Hs. rewrite toCSVform_spec by assumption. eexists. split; [reflexivity|].
  destruct (in_dec Z.eq_dec 44 s) as [Hi|Hi].
  - cbn [app]. unfold csv_read. rewrite <- app_assoc. cbn [app]. apply csv_quoted_spec.
    destruct Hr as [->|(c & r & -> & Hc)]; cbn; [discriminate|]. intros H; injection H as H. lia.
  - destruct Hs as [Hs|(H1 & H2 & H3)]; [contradiction|].
    rewrite csv_read_unquoted.
    + rewrite csv_plain_spec by assumption. reflexivity.
    + destruct s as [|x s]; [|exact H1]. cbn [app].
      destruct Hr as [->|(c & r & -> & Hc)]; cbn; [discriminate|]. intros H; injection H as H. lia.
Qed.
(** Without a comma, quotes and line breaks are passed through. *)
Theorem C59_csv_quotes_refuted : exists s out, toCSVform s = Ok out /\ csv_read out = Some ([97], []) /\ s <> [97].
Proof. exists [34; 97; 34], [34; 97; 34]. repeat split. discriminate. Qed.
Theorem C59_csv_newline_refuted : exists s out, toCSVform s = Ok out /\ csv_read out = Some ([97], [10; 98]) /\ s <> [97].
Proof. exists [97; 10; 98], [97; 10; 98]. repeat split. discriminate. Qed.
Theorem C59_csv_injective : forall s t, 2 * len s + 3 < 2 ^ 31 -> 2 * len t + 3 < 2 ^ 31 ->
  toCSVform s = toCSVform t -> s = t.
Proof.
  assert (K : forall s, In 44 s -> In 44 (34 :: concat (map csv_char s) ++ [34])).
  { intros s H. right. apply in_or_app. left. apply in_concat. exists [44]. split; [|now left].
    apply in_map_iff. exists 44. split; [reflexivity|assumption]. }
  intros s t Hs Ht. rewrite !toCSVform_spec by assumption. intros H. injection H as H.
  destruct (in_dec Z.eq_dec 44 s) as [Hi|Hi]; destruct (in_dec Z.eq_dec 44 t) as [Hj|Hj].
  - injection H as H. assert (E : csv_quoted (concat (map csv_char s) ++ 34 :: []) = csv_quoted (concat (map csv_char t) ++ 34 :: [])) by now rewrite H.
    rewrite !csv_quoted_spec in E by discriminate. congruence.
  - exfalso. apply Hj. rewrite <- H. now apply K.
  - exfalso. apply Hi. rewrite H. now apply K.
  - assumption.
Qed.
Example C59_nonvacuous : toCSVform [97; 44; 34; 98] = Ok [34; 97; 44; 34; 34; 98; 34].
Proof. reflexivity. Qed.
Print Assumptions C59_csv_round_trip_partial.
Print Assumptions C59_csv_injective.

(** ** C60: prefixequal and suffixequal *)
Theorem C60_prefixequal : forall s p, prefixequal s p = true <-> exists r, s = p ++ r.
Proof.
  intros s p. unfold prefixequal. rewrite andb_true_iff, str_eqb_eq. split.
  - intros [Hl H]. exists (skipn (length p) s). rewrite <- H at 1. symmetry. apply firstn_skipn.
  - intros [r ->]. rewrite app_length. split; [lia|]. now rewrite firstn_app, Nat.sub_diag, firstn_all, app_nil_r.
Qed.
Theorem C60_suffixequal : forall s p, suffixequal s p = true <-> exists r, s = r ++ p.
Proof.
  intros s p. unfold suffixequal. destruct (len s <? len p) eqn:E.
  - split; [discriminate|]. intros [r ->]. rewrite app_length in E. lia.
  - rewrite str_eqb_eq. rewrite firstn_all2 by (rewrite skipn_length; lia). split.
    + intros H. exists (firstn (length s - length p) s). rewrite <- H at 2. symmetry. apply firstn_skipn.
    + intros [r ->]. rewrite app_length. replace (length r + length p - length p)%nat with (length r) by lia.
      now rewrite skipn_app, Nat.sub_diag, skipn_all.
Qed.
Example C60_nonvacuous : prefixequal [1; 2; 3] [1; 2] = true /\ suffixequal [1; 2; 3] [1; 2] = false
  /\ suffixequal [1; 2; 3] [2; 3] = true.
Proof. repeat split; reflexivity. Qed.
Print Assumptions C60_prefixequal.
Print Assumptions C60_suffixequal.
