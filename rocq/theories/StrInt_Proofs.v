(** Proofs about the conversions of StrInt_Model. *)
From Coq Require Import List ZArith Bool Lia ZifyBool.
From Verif Require Import Common StringUtil_Model StrInt_Model StrInt_Spec.
Import ListNotations.
Local Open Scope Z_scope.

Lemma digit_of_iff : forall base c d, 0 <= base <= 16 -> digit_of base c = Some d <-> is_digit base c d.
Proof.
  intros base c d B. unfold digit_of, is_digit. cbv zeta.
  destruct ((48 <=? c) && (c <=? 57)) eqn:E1; [|destruct ((97 <=? c) && (c <=? 102)) eqn:E2; [|destruct ((65 <=? c) && (c <=? 70)) eqn:E3]];
    match goal with |- context [if ?a <? base then _ else _] => destruct (a <? base) eqn:E end;
    (split; [intros H; first [discriminate | injection H as <-; lia] | intros H; first [exfalso; lia | f_equal; lia]]).
Qed.
Lemma digit_none : forall base c, 0 <= base <= 16 -> digit_of base c = None <-> (forall d, ~ is_digit base c d).
Proof.
  intros base c B. split.
  - intros E d H. apply digit_of_iff in H; [congruence|assumption].
  - intros H. destruct (digit_of base c) as [d|] eqn:E; [|reflexivity]. apply digit_of_iff in E; [|assumption]. now apply H in E.
Qed.

Definition acc_value (base : Z) (ds : list Z) (a : Z) : Z := fold_left (fun a d => base * a + d) ds a.
Lemma acc_value_ge : forall base ds a, 1 <= base -> 0 <= a -> Forall (fun d => 0 <= d) ds -> a <= acc_value base ds a.
Proof.
  intros base ds. induction ds as [|d ds IH]; intros a B A F; cbn; [lia|]. inversion F; subst.
  assert (a <= base * a + d) by nia. specialize (IH (base * a + d) B ltac:(lia) H2). unfold acc_value in *. lia.
Qed.
Lemma digits_nonneg : forall base s ds, Forall2 (is_digit base) s ds -> Forall (fun d => 0 <= d) ds.
Proof. intros base s ds F. induction F; constructor; [unfold is_digit in *; lia|assumption]. Qed.

Lemma cast_digits_iff : forall limit s acc v, 0 <= acc <= limit ->
  cast_digits limit s acc = Ok v <-> exists ds, Forall2 (is_digit 10) s ds /\ v = acc_value 10 ds acc /\ v <= limit.
Proof.
  intros limit s. induction s as [|c r IH]; intros acc v A; cbn [cast_digits].
  - split; [intros H; injection H as <-; exists []; split; [constructor|]; cbn; lia|]. intros (ds & F & E & _). inversion F; subst. reflexivity.
  - destruct (digit_of 10 c) as [d|] eqn:E.
    + pose proof E as E'. apply digit_of_iff in E'; [|lia]. cbv zeta. destruct (10 * acc + d <=? limit) eqn:L.
      * rewrite IH by (unfold is_digit in E'; lia). split.
        { intros (ds & F & Ev & Lv). exists (d :: ds). split; [now constructor|]. split; [exact Ev|exact Lv]. }
        intros (ds & F & Ev & Lv). inversion F as [|? d' ? ds' Hd F']; subst. apply digit_of_iff in Hd; [|lia]. assert (d' = d) by congruence. subst. exists ds'. auto.
      * split; [discriminate|]. intros (ds & F & Ev & Lv). exfalso. inversion F as [|? d' ? ds' Hd F']; subst. apply digit_of_iff in Hd; [|lia]. assert (d' = d) by congruence. subst.
        pose proof (acc_value_ge 10 ds' (10 * acc + d) ltac:(lia)) as G. unfold is_digit in E'. specialize (G ltac:(lia) (digits_nonneg _ _ _ F')). change (acc_value 10 (d :: ds') acc) with (acc_value 10 ds' (10 * acc + d)) in Lv. lia.
    + split; [discriminate|]. intros (ds & F & _). exfalso. inversion F as [|? d' ? ds' Hd F']; subst. apply digit_of_iff in Hd; [congruence|lia].
Qed.
Lemma cast_digits_abort : forall limit s acc, (exists v, cast_digits limit s acc = Ok v) \/ cast_digits limit s acc = Abort.
Proof. intros limit s. induction s as [|c r IH]; intros acc; cbn [cast_digits]; [eauto|]. destruct (digit_of 10 c); [|auto]. cbv zeta. destruct (_ <=? _); auto. Qed.
Lemma cast_number_iff : forall limit s v, 0 <= limit -> cast_number limit s = Ok v <-> natural 10 s v /\ v <= limit.
Proof.
  intros limit s v L. unfold cast_number, natural. destruct s as [|c r].
  - split; [discriminate|]. intros ((H & _) & _). congruence.
  - rewrite cast_digits_iff by lia. split.
    + intros (ds & F & E & Lv). split; [|exact Lv]. split; [discriminate|]. now exists ds.
    + intros ((_ & ds & F & E) & Lv). now exists ds.
Qed.
Lemma cast_number_abort : forall limit s, (exists v, cast_number limit s = Ok v) \/ cast_number limit s = Abort.
Proof. intros limit [|c r]; [now right|]. apply cast_digits_abort. Qed.
Lemma natural_nonneg : forall base s n, 1 <= base -> natural base s n -> 0 <= n.
Proof.
  intros base s n B (_ & ds & F & ->). apply digits_nonneg in F. exact (acc_value_ge base ds 0 B ltac:(lia) F).
Qed.
Lemma natural_head : forall c r n, natural 10 (c :: r) n -> c <> 43 /\ c <> 45.
Proof. intros c r n (_ & ds & F & _). inversion F; subst. unfold is_digit in *. lia. Qed.

Lemma limits : forall t, 1 <= bits t -> 0 <= tmax t /\ 1 <= 2 ^ (bits t - 1) /\ 2 ^ bits t = 2 * 2 ^ (bits t - 1).
Proof.
  intros t B. assert (P : 1 <= 2 ^ (bits t - 1)) by (apply (Z.pow_le_mono_r 2 0); lia). assert (Q : 2 ^ bits t = 2 * 2 ^ (bits t - 1)) by (rewrite <- Z.pow_succ_r by lia; f_equal; lia).
  unfold tmax. destruct (is_signed t); lia.
Qed.

Lemma bind_ok_iff : forall A B (m : res A) (f : A -> B) v, (let! x := m in Ok (f x)) = Ok v <-> exists x, m = Ok x /\ v = f x.
Proof.
  intros A B m f v. destruct m; cbn [bind]; (split; [intros H; try discriminate; injection H as <-; eauto|intros (x & H & ->); try discriminate; injection H as <-; reflexivity]).
Qed.

Lemma lexical_signed : forall t s v, is_signed t = true -> 8 < bits t ->
  lexical_cast t s = Ok v <-> integer s v /\ tmin t <= v <= tmax t.
Proof.
  intros t s v S B. destruct (limits t) as (L0 & L1 & L2); [lia|]. unfold lexical_cast. replace (bits t =? 8) with false by lia. unfold integer.
  assert (Tn : tmin t = - 2 ^ (bits t - 1)) by (unfold tmin; now rewrite S). assert (Tx : tmax t = 2 ^ (bits t - 1) - 1) by (unfold tmax; now rewrite S).
  destruct s as [|c r].
  - split; [discriminate|]. intros ([(H & _)|[(r & H & _)|(r & n & H & _)]] & _); congruence.
  - destruct (c =? 45) eqn:E1; [|destruct (c =? 43) eqn:E2].
    + assert (c = 45) by lia. subst c. unfold cast_minus. rewrite S, bind_ok_iff. split.
      * intros (x & E & ->). apply cast_number_iff in E; [|lia]. destruct E as (N & Lx). pose proof (natural_nonneg 10 _ _ ltac:(lia) N). split; [right; right; eauto|lia].
      * intros ([N|[(r' & H & _)|(r' & n & H & N & ->)]] & Lv); [apply natural_head in N; lia|congruence|]. injection H as <-. exists n. split; [|reflexivity]. apply cast_number_iff; [lia|]. split; [exact N|lia].
    + assert (c = 43) by lia. subst c. rewrite cast_number_iff by lia. split.
      * intros (N & Lx). pose proof (natural_nonneg 10 _ _ ltac:(lia) N). split; [right; left; eauto|lia].
      * intros ([N|[(r' & H & N)|(r' & n & H & _)]] & Lv); [apply natural_head in N; lia| |congruence]. injection H as <-. split; [exact N|lia].
    + rewrite cast_number_iff by lia. split.
      * intros (N & Lx). pose proof (natural_nonneg 10 _ _ ltac:(lia) N). split; [now left|lia].
      * intros ([N|[(r' & H & N)|(r' & n & H & _)]] & Lv); [split; [exact N|lia]| |]; injection H as H1 H2; lia.
Qed.
Lemma lexical_unsigned : forall t s v, is_signed t = false -> 8 < bits t ->
  lexical_cast t s = Ok v <->
  (integer s v /\ hd 0 s <> 45 /\ v <= tmax t \/ exists r n, s = 45 :: r /\ natural 10 r n /\ n <= tmax t /\ v = - n mod 2 ^ bits t).
Proof.
  intros t s v S B. destruct (limits t) as (L0 & L1 & L2); [lia|]. unfold lexical_cast. replace (bits t =? 8) with false by lia. unfold integer.
  destruct s as [|c r].
  - split; [discriminate|]. intros [([(H & _)|[(r & H & _)|(r & n & H & _)]] & _)|(r & n & H & _)]; congruence.
  - cbn [hd]. destruct (c =? 45) eqn:E1; [|destruct (c =? 43) eqn:E2].
    + assert (c = 45) by lia. subst c. unfold cast_minus. rewrite S, bind_ok_iff. split.
      * intros (x & E & ->). apply cast_number_iff in E; [|lia]. destruct E as (N & Lx). right. eauto 6.
      * intros [(_ & H & _)|(r' & n & H & N & Ln & ->)]; [congruence|]. injection H as <-. exists n. split; [|reflexivity]. apply cast_number_iff; [lia|]. split; [exact N|lia].
    + assert (c = 43) by lia. subst c. rewrite cast_number_iff by lia. split.
      * intros (N & Lx). left. split; [right; left; eauto|lia].
      * intros [([N|[(r' & H & N)|(r' & n & H & _)]] & _ & Lv)|(r' & n & H & _)]; [apply natural_head in N; lia| |congruence|congruence]. injection H as <-. split; [exact N|lia].
    + rewrite cast_number_iff by lia. split.
      * intros (N & Lx). left. split; [now left|lia].
      * intros [([N|[(r' & H & N)|(r' & n & H & _)]] & _ & Lv)|(r' & n & H & _)]; [split; [exact N|lia]| | |]; injection H as H1 H2; lia.
Qed.
Lemma lexical_abort : forall t s, (exists v, lexical_cast t s = Ok v) \/ lexical_cast t s = Abort.
Proof.
  intros t s. unfold lexical_cast, cast_minus. destruct (bits t =? 8); [destruct s as [|c [|? ?]]; eauto|].
  destruct s as [|c r]; [auto|]. destruct (c =? 45); [|destruct (c =? 43); apply cast_number_abort].
  destruct (is_signed t); match goal with |- context [cast_number ?l ?r] => destruct (cast_number_abort l r) as [(x & E)|E]; rewrite E; cbn [bind]; eauto end.
Qed.

(** ** Streams *)
Lemma stream_digits_spec : forall base ds s rest acc, 0 <= base <= 16 -> Forall2 (is_digit base) s ds ->
  (forall c d, hd_error rest = Some c -> ~ is_digit base c d) -> stream_digits base (s ++ rest) acc = acc_value base ds acc.
Proof.
  intros base ds s rest acc B F H. revert acc. induction F as [|c d s ds Hd F IH]; intros acc.
  - cbn [app acc_value fold_left]. destruct rest as [|c r]; [reflexivity|]. cbn [stream_digits]. assert (N : digit_of base c = None) by (apply digit_none; [assumption|]; intros d; now apply H). now rewrite N.
  - cbn [app stream_digits]. apply digit_of_iff in Hd; [|assumption]. rewrite Hd. apply IH.
Qed.
Lemma stream_number_spec : forall base limit s rest n, base = 8 \/ base = 16 -> natural base s n ->
  (forall c d, hd_error rest = Some c -> ~ is_digit base c d) -> (base = 16 -> s = [48] -> hd_error rest <> Some 120 /\ hd_error rest <> Some 88) ->
  stream_number base limit (s ++ rest) = if n <=? limit then Ok n else Abort.
Proof.
  intros base limit s rest n B (Hne & ds & F & ->) H H0. unfold stream_number.
  assert (E : skip_0x base (s ++ rest) = s ++ rest).
  { destruct s as [|c [|x s]]; [congruence| |].
    - destruct rest as [|x r]; [reflexivity|]. cbn [app skip_0x]. destruct ((base =? 16) && (c =? 48) && ((x =? 120) || (x =? 88))) eqn:E; [|reflexivity]. exfalso.
      destruct (H0 ltac:(lia) ltac:(f_equal; lia)) as (H1 & H2). cbn in H1, H2. assert (x = 120 \/ x = 88) by lia. destruct H3; subst; congruence.
    - cbn [app skip_0x]. destruct ((base =? 16) && (c =? 48) && ((x =? 120) || (x =? 88))) eqn:E; [|reflexivity]. exfalso. inversion F as [|? ? ? ? ? F']; subst. inversion F' as [|? ? ? ? Hx ?]; subst. unfold is_digit in Hx. lia. }
  rewrite E. cbv zeta. rewrite (stream_digits_spec base ds s rest 0) by (assumption || lia). change (acc_value base ds 0) with (value base ds). destruct s as [|c s]; [congruence|]. cbn [app]. inversion F as [|? d ? ? Hd ?]; subst. apply digit_of_iff in Hd; [|lia]. now rewrite Hd.
Qed.
Lemma stream_number_0x : forall limit s rest n, natural 16 s n -> (forall c d, hd_error rest = Some c -> ~ is_digit 16 c d) ->
  forall x, x = 120 \/ x = 88 -> stream_number 16 limit (48 :: x :: s ++ rest) = if n <=? limit then Ok n else Abort.
Proof.
  intros limit s rest n (Hne & ds & F & ->) H x Hx. unfold stream_number. cbn [skip_0x]. replace ((16 =? 16) && (48 =? 48) && ((x =? 120) || (x =? 88))) with true by lia. cbv zeta.
  rewrite (stream_digits_spec 16 ds s rest 0) by (assumption || lia). change (acc_value 16 ds 0) with (value 16 ds). destruct s as [|c s]; [congruence|]. cbn [app]. inversion F as [|? d ? ? Hd ?]; subst. apply digit_of_iff in Hd; [|lia]. now rewrite Hd.
Qed.
Lemma skip_space_app : forall ws s, Forall (fun c => isspace c = true) ws -> (forall c, hd_error s = Some c -> isspace c = false) -> skip_space (ws ++ s) = s.
Proof.
  intros ws s F H. induction F as [|c ws Hc F IH]; cbn [app skip_space].
  - destruct s as [|c r]; [reflexivity|]. cbn [skip_space]. now rewrite (H c eq_refl).
  - now rewrite Hc.
Qed.

(** ** Counting lines *)
Lemma prefixequal_iff : forall s p, prefixequal s p = true <-> exists r, s = p ++ r.
Proof.
  assert (Q : forall a b, str_eqb a b = true <-> a = b).
  { induction a as [|x a IH]; intros [|y b]; cbn; split; intros H; try discriminate; try reflexivity.
    - apply andb_prop in H. destruct H as [H1 H2]. apply IH in H2. f_equal; [lia|assumption].
    - injection H as -> ->. replace (y =? y) with true by lia. now apply IH. }
  intros s p. unfold prefixequal. rewrite andb_true_iff, Q. split.
  - intros (_ & E). exists (skipn (length p) s). rewrite <- E at 1. symmetry. apply firstn_skipn.
  - intros (r & ->). split; [rewrite app_length; lia|]. rewrite firstn_app, Nat.sub_diag. cbn. rewrite app_nil_r. apply firstn_all2. lia.
Qed.
Definition heads (p : list Z) (ls : list (list Z)) : Z := Z.of_nat (length (filter (fun l => prefixequal l p) ls)).
Lemma lines_ne : forall f, lines f <> [].
Proof. intros [|c r]; cbn; [discriminate|]. destruct (c =? 10); [discriminate|]. destruct (lines r); discriminate. Qed.
Lemma count_lines_spec : forall p file cur n, 0 <= n -> n + len file < 2 ^ 32 - 1 ->
  count_lines file cur p n = n + heads p (match lines file with l :: ls => (rev cur ++ l) :: ls | [] => [] end).
Proof.
  intros p file. unfold heads. induction file as [|c r IH]; intros cur n N L; cbn [count_lines lines].
  - rewrite app_nil_r. cbn [filter]. destruct (prefixequal (rev cur) p); cbn [length]; cbn [length] in L; [rewrite Z.mod_small|]; lia.
  - assert (L' : n + 1 + len r < 2 ^ 32 - 1) by (cbn [length] in L; lia). destruct (c =? 10).
    + pose proof (lines_ne r). rewrite app_nil_r. cbn [filter]. destruct (lines r) as [|l ls] eqn:El; [congruence|].
      destruct (prefixequal (rev cur) p) eqn:Ep; cbn [filter].
      * rewrite Z.mod_small by (lia). rewrite IH by lia. cbn [rev app]. cbn [length filter]. destruct (prefixequal l p); cbn [length]; lia.
      * rewrite IH by lia. cbn [rev app]. reflexivity.
    + rewrite IH by lia. cbn [rev]. destruct (lines r) as [|l ls] eqn:El; [now apply lines_ne in El|]. rewrite <- app_assoc. reflexivity.
Qed.
