(** C100 to C103: small utilities. *)
From Coq Require Import List Arith ZArith Lia Bool ZifyBool ZifyNat.
From Verif Require Import Common CommonFacts StringUtil_Model StrInt_Model StrInt_Spec StrInt_Proofs Util_Model Util_Spec.
Import ListNotations.
Open Scope Z_scope.

(** ** C100 *)
Lemma skipn_get {A} (m : list A) : forall i x, nth_error m i = Some x -> skipn i m = x :: skipn (S i) m.
Proof. induction m as [|y m IH]; intros [|i] x H; try discriminate; cbn in *; [congruence|]. now apply IH. Qed.
Lemma range_loop_spec {A B} (differ : A -> B -> bool) m1 m2 l1 l2 : (l1 <= length m1)%nat -> (l2 <= length m2)%nat -> forall fuel f1 f2,
  (f1 <= l1)%nat -> (f2 <= l2)%nat -> (l1 - f1 <= fuel)%nat ->
  exists b, range_loop differ fuel m1 m2 f1 l1 f2 l2 = Ok b /\ (b = true <-> Forall2 (fun x y => differ x y = false) (slice m1 f1 l1) (slice m2 f2 l2)).
Proof.
  intros L1 L2. assert (S0 : forall {T} (m : list T) f, slice m f f = []) by (intros; unfold slice; now rewrite Nat.sub_diag).
  assert (S1 : forall T (m : list T) f l x, nth_error m f = Some x -> (f < l)%nat -> slice m f l = x :: slice m (S f) l).
  { intros T m f l x H Hl. unfold slice. rewrite (skipn_get m f x H). replace (l - f)%nat with (S (l - S f)) by lia. reflexivity. }
  assert (GE : forall T (m : list T) i, (i < length m)%nat -> exists x, nth_error m i = Some x) by (intros T m i H; apply nth_error_Some in H; destruct (nth_error m i); [eauto|congruence]).
  induction fuel as [|fuel IH]; intros f1 f2 H1 H2 HF; cbn [range_loop]; destruct (Nat.eqb_spec f1 l1) as [->|N1].
  1, 3: exists (f2 =? l2)%nat; split; [reflexivity|]; rewrite S0; destruct (Nat.eqb_spec f2 l2) as [->|N2]; [rewrite S0; split; [constructor|reflexivity]|];
    destruct (GE _ m2 f2 ltac:(lia)) as (y & Ey); rewrite (S1 _ m2 f2 l2 y Ey) by lia; split; [discriminate|intros F; inversion F].
  1: lia.
  destruct (GE _ m1 f1 ltac:(lia)) as (x & Ex). rewrite (S1 _ m1 f1 l1 x Ex) by lia. destruct (Nat.eqb_spec f2 l2) as [->|N2].
  - exists false. split; [reflexivity|]. rewrite S0. split; [discriminate|intros F; inversion F].
  - destruct (GE _ m2 f2 ltac:(lia)) as (y & Ey). rewrite (S1 _ m2 f2 l2 y Ey) by lia. unfold get. rewrite Ex, Ey. cbn [bind]. destruct (differ x y) eqn:D.
    + exists false. split; [reflexivity|]. split; [discriminate|]. intros F. inversion F. congruence.
    + destruct (IH (S f1) (S f2) ltac:(lia) ltac:(lia) ltac:(lia)) as (b & E & Hb). exists b. split; [exact E|]. rewrite Hb. split; [now constructor|]. intros F. now inversion F.
Qed.
(** C100. For all containers and valid ranges in them, iteratorRangeEqual returns without
    reading outside of the containers (so never past the end of the second range when that
    is the end of its container), and is true exactly if the ranges have the same length
    and no element differs from its counterpart. *)
Theorem C100_range_equal : forall A B (differ : A -> B -> bool) m1 m2 first1 last1 first2 last2,
  (first1 <= last1 <= length m1)%nat -> (first2 <= last2 <= length m2)%nat ->
  exists b, iteratorRangeEqual differ m1 m2 first1 last1 first2 last2 = Ok b /\
    (b = true <-> Forall2 (fun x y => differ x y = false) (slice m1 first1 last1) (slice m2 first2 last2)).
Proof. intros A B differ m1 m2 f1 l1 f2 l2 H1 H2. apply range_loop_spec; lia. Qed.
Print Assumptions C100_range_equal.
(** A shorter second range at the end of its container, equal ranges in the middle, and a
    longer second range. *)
Example C100_ex : let differ a b := negb (a =? b) in
  iteratorRangeEqual differ [1; 2; 3] [1; 2] 0 3 0 2 = Ok false /\ iteratorRangeEqual differ [1; 2; 3] [7; 2; 3] 1 3 1 3 = Ok true /\
  iteratorRangeEqual differ [1; 2; 3] [1; 2; 3; 4] 0 3 0 4 = Ok false /\ iteratorRangeEqual differ [1; 2; 3] [1; 5; 3] 0 3 0 3 = Ok false.
Proof. vm_compute. auto. Qed.

(** ** C101 *)
Lemma printf_some t : (Z.of_nat (length t) < 2 ^ 31) ->
  stringPrintF (Some t) = Returns (if (length t <? 1024)%nat then t else firstn 1023 t ++ repeat 0 (length t - 1023)).
Proof.
  intros H. unfold stringPrintF, vsnprintf, resize. rewrite repeat_length. replace (1024 - 1)%nat with 1023%nat by reflexivity.
  rewrite Z.mod_small by lia. assert (L : (2 ^ 63 <=? Z.of_nat (length t)) = false) by lia. rewrite L. rewrite Nat2Z.id. f_equal.
  assert (LB : length (firstn 1023 t ++ [0]) = S (Nat.min 1023 (length t))) by (rewrite app_length, firstn_length; cbn [length]; lia).
  assert (SK : forall k, skipn k (repeat 0 1024) = repeat 0 (1024 - k)).
  { intros k. generalize 1024%nat. intros n. revert k. induction n as [|n IH]; intros [|k]; cbn; auto. }
  rewrite LB, SK. set (b := firstn 1024 _). assert (Lb : length b = 1024%nat) by (subst b; rewrite firstn_length, app_length, LB, repeat_length; lia). rewrite Lb.
  destruct (Nat.ltb_spec (length t) 1024) as [Q|Q].
  - replace (length t - 1024)%nat with 0%nat by lia. cbn [repeat]. rewrite app_nil_r. subst b. rewrite firstn_firstn. replace (Nat.min (length t) 1024) with (length t) by lia.
    rewrite (firstn_all2 t) by lia. rewrite <- app_assoc, firstn_app, firstn_all, Nat.sub_diag. cbn [firstn]. apply app_nil_r.
  - rewrite (firstn_all2 b) by lia. subst b. replace (Nat.min 1023 (length t)) with 1023%nat by lia. replace (1024 - 1024)%nat with 0%nat by lia. cbn [repeat]. rewrite app_nil_r.
    rewrite (firstn_all2 (firstn 1023 t ++ [0])) by (rewrite LB; lia). rewrite <- app_assoc. f_equal. replace (length t - 1023)%nat with (S (length t - 1024)) by lia. reflexivity.
Qed.
(** C101. stringPrintF returns exactly the formatted text, whatever bytes are in it, if
    that has less than 1024 characters. *)
Theorem C101_partial : forall text, (length text < 1024)%nat -> stringPrintF (Some text) = Returns text.
Proof. intros t H. rewrite printf_some by lia. destruct (Nat.ltb_spec (length t) 1024); [reflexivity|lia]. Qed.
Print Assumptions C101_partial.
(** A longer text comes back with its length, but all after its first 1023 characters is NUL. *)
Theorem C101_long_refuted : forall text, (1024 <= length text)%nat -> Z.of_nat (length text) < 2 ^ 31 ->
  stringPrintF (Some text) = Returns (firstn 1023 text ++ repeat 0 (length text - 1023)) /\
  (~ In 0 text -> stringPrintF (Some text) <> Returns text).
Proof.
  intros t H L. assert (E : stringPrintF (Some t) = Returns (firstn 1023 t ++ repeat 0 (length t - 1023))) by (rewrite printf_some by exact L; destruct (Nat.ltb_spec (length t) 1024); [lia|reflexivity]).
  split; [exact E|]. intros N C. rewrite E in C. injection C as C. apply N. rewrite <- C. apply in_or_app. right. destruct (length t - 1023)%nat eqn:K; [lia|]. now left.
Qed.
Print Assumptions C101_long_refuted.
(** A formatting error is an exception of another kind, not a message. *)
Theorem C101_error_refuted : stringPrintF None = ThrowsLengthError.
Proof. unfold stringPrintF, vsnprintf, resize. replace (2 ^ 63 <=? -1 mod 2 ^ 64) with true by reflexivity. reflexivity. Qed.
Print Assumptions C101_error_refuted.
Example C101_ex : stringPrintF (Some [104; 0; 105]) = Returns [104; 0; 105].
Proof. apply C101_partial. cbn. lia. Qed.

(** ** C102 *)
Lemma int64_ok z : fits z -> int64 z = Ok z.
Proof. unfold fits, int64. intros H. destruct (Z.leb_spec (- 2 ^ 63) z); [|lia]. destruct (Z.ltb_spec z (2 ^ 63)); [reflexivity|lia]. Qed.
Lemma int64_ub z : ~ fits z -> int64 z = UB.
Proof. unfold fits, int64. intros H. destruct (Z.leb_spec (- 2 ^ 63) z); [|reflexivity]. destruct (Z.ltb_spec z (2 ^ 63)); [lia|reflexivity]. Qed.
Lemma modify_spec sec nsec : 0 <= nsec < 10 ^ 9 -> modifyTimeNanoSec sec nsec = if (- 2 ^ 63 <=? sec * 10 ^ 9) && (sec * 10 ^ 9 + nsec <? 2 ^ 63) then Ok (sec * 10 ^ 9 + nsec) else UB.
Proof.
  intros N. unfold modifyTimeNanoSec. replace (sec * 10 ^ 9 + nsec) with (sec * 1000 * 1000 * 1000 + nsec) by lia. replace (sec * 10 ^ 9) with (sec * 1000 * 1000 * 1000) by lia.
  set (p := sec * 1000 * 1000 * 1000) in *. assert (P : p = sec * 1000000000) by (subst p; lia).
  destruct (Z.leb_spec (- 2 ^ 63) p) as [A|A]; [destruct (Z.ltb_spec (p + nsec) (2 ^ 63)) as [B|B]|]; cbn [andb].
  - rewrite (int64_ok sec) by (unfold fits; lia). cbn [bind]. rewrite (int64_ok (sec * 1000)) by (unfold fits; lia). cbn [bind]. rewrite (int64_ok (sec * 1000 * 1000)) by (unfold fits; lia). cbn [bind]. fold p. rewrite (int64_ok p) by (unfold fits; lia). cbn [bind]. apply int64_ok. unfold fits. lia.
  - unfold int64 at 1. destruct (_ && _); [|reflexivity]. cbn [bind]. unfold int64 at 1. destruct (_ && _); [|reflexivity]. cbn [bind]. unfold int64 at 1. destruct (_ && _); [|reflexivity]. cbn [bind]. fold p. unfold int64 at 1. destruct (_ && _); [|reflexivity]. cbn [bind]. apply int64_ub. unfold fits. lia.
  - unfold int64 at 1. destruct (_ && _); [|reflexivity]. cbn [bind]. unfold int64 at 1. destruct (_ && _); [|reflexivity]. cbn [bind]. unfold int64 at 1. destruct (_ && _); [|reflexivity]. cbn [bind]. fold p. rewrite int64_ub by (unfold fits; lia). reflexivity.
Qed.
(** C102. For every modification time whose nanoseconds since 1970 fit in 64 bits, with the
    exception below, modifyTimeNanoSec returns exactly those. *)
Theorem C102_partial : forall sec nsec, 0 <= nsec < 10 ^ 9 -> fits (sec * 10 ^ 9) -> fits (sec * 10 ^ 9 + nsec) ->
  modifyTimeNanoSec_file (Some (sec, nsec)) = Ok (sec * 10 ^ 9 + nsec).
Proof.
  intros sec nsec N F1 F2. cbn [modifyTimeNanoSec_file]. rewrite modify_spec by exact N. unfold fits in *. destruct (Z.leb_spec (- 2 ^ 63) (sec * 10 ^ 9)); [|lia]. destruct (Z.ltb_spec (sec * 10 ^ 9 + nsec) (2 ^ 63)); [reflexivity|lia].
Qed.
Print Assumptions C102_partial.
(** Two files compare by the results as they compare by time. *)
Theorem C102_order : forall a b ta tb, 0 <= snd a < 10 ^ 9 -> 0 <= snd b < 10 ^ 9 ->
  modifyTimeNanoSec (fst a) (snd a) = Ok ta -> modifyTimeNanoSec (fst b) (snd b) = Ok tb -> (ta < tb <-> earlier a b) /\ (ta = tb <-> a = b).
Proof.
  intros [s1 n1] [s2 n2] ta tb N1 N2 E1 E2. cbn [fst snd] in *. rewrite modify_spec in E1, E2 by assumption. destruct (_ && _) in E1; [|discriminate]. destruct (_ && _) in E2; [|discriminate]. injection E1 as <-. injection E2 as <-. unfold earlier. cbn [fst snd]. split; [lia|]. split; [intros; f_equal; lia|intros C; injection C as -> ->; reflexivity].
Qed.
Print Assumptions C102_order.
(** Outside it is undefined; the product alone overflows for some times before 1970 whose
    nanoseconds would fit. *)
Theorem C102_overflow_refuted : forall sec nsec, 0 <= nsec < 10 ^ 9 -> ~ fits (sec * 10 ^ 9) \/ ~ fits (sec * 10 ^ 9 + nsec) -> modifyTimeNanoSec sec nsec = UB.
Proof. intros sec nsec N F. rewrite modify_spec by exact N. unfold fits in F. destruct (Z.leb_spec (- 2 ^ 63) (sec * 10 ^ 9)); [|reflexivity]. destruct (Z.ltb_spec (sec * 10 ^ 9 + nsec) (2 ^ 63)); [lia|reflexivity]. Qed.
Print Assumptions C102_overflow_refuted.
Theorem C102_fits_refuted : exists sec nsec, 0 <= nsec < 10 ^ 9 /\ fits (sec * 10 ^ 9 + nsec) /\ modifyTimeNanoSec sec nsec = UB.
Proof. exists (-9223372037), 999999999. split; [lia|]. split; [unfold fits; lia|]. apply C102_overflow_refuted; [lia|]. left. unfold fits. lia. Qed.
Print Assumptions C102_fits_refuted.
Example C102_ex : modifyTimeNanoSec 1700000000 5 = Ok 1700000000000000005 /\ modifyTimeNanoSec (-1) 999999999 = Ok (-1) /\ modifyTimeNanoSec_file None = Abort /\ modifyTimeNanoSec 9223372037 0 = UB.
Proof. vm_compute. auto. Qed.

(** ** C103 *)
Lemma scan_digits_spec : forall s ds acc rest, Forall2 (is_digit 10) s ds -> (forall c r, rest = c :: r -> digit_of 10 c = None) -> scan_digits (s ++ rest) acc = (fold_left (fun a d => 10 * a + d) ds acc, rest).
Proof.
  induction s as [|c s IH]; intros ds acc rest F R; inversion F as [|? d ? ds' H F']; subst.
  - cbn [app fold_left]. destruct rest as [|c r]; [reflexivity|]. cbn [scan_digits]. now rewrite (R c r eq_refl).
  - cbn [app scan_digits fold_left]. apply digit_of_iff in H; [|lia]. rewrite H. now apply IH.
Qed.
Lemma scan_zu_natural s n rest : natural 10 s n -> (forall c r, rest = c :: r -> digit_of 10 c = None) -> scan_zu (s ++ rest) = Some (Z.min n (2 ^ 64 - 1), rest).
Proof.
  intros (Ns & ds & F & En) R. destruct s as [|c s]; [congruence|]. assert (H : exists d, is_digit 10 c d) by (inversion F; eauto). destruct H as (d & Hd). pose proof Hd as Hd'. apply digit_of_iff in Hd'; [|lia].
  assert (Rg : 48 <= c <= 57) by (unfold is_digit in Hd; lia). unfold scan_zu. cbn [app skip_space].
  assert (SP : isspace c = false) by (unfold isspace; lia). rewrite SP. destruct (Z.eqb_spec c 45); [lia|]. destruct (Z.eqb_spec c 43); [lia|]. cbn [scan_unsigned]. rewrite Hd'. change (c :: s ++ rest) with ((c :: s) ++ rest). rewrite (scan_digits_spec _ ds 0 rest F R). unfold value in En. now rewrite <- En.
Qed.
Lemma scan_zu_blank s : scan_zu (32 :: s) = scan_zu s.
Proof. reflexivity. Qed.
Lemma scan_n_blank k s : scan_n k (32 :: s) = scan_n k s.
Proof. destruct k; [reflexivity|]. cbn [scan_n]. now rewrite scan_zu_blank. Qed.
Lemma scan_line text ns : line text ns -> forall k, scan_n k text = if (k <=? length ns)%nat then Some (map (fun n => Z.min n (2 ^ 64 - 1)) (firstn k ns)) else None.
Proof.
  induction 1 as [s n N|s n t ns N Hl IH]; intros [|k]; try reflexivity; cbn [scan_n].
  - rewrite (scan_zu_natural s n [10] N) by (intros c r E; injection E as <- <-; reflexivity). destruct k as [|k]; [reflexivity|]. cbn. reflexivity.
  - rewrite (scan_zu_natural s n (32 :: t) N) by (intros c r E; injection E as <- <-; reflexivity). rewrite scan_n_blank, IH. cbn [length Nat.leb]. destruct (k <=? length ns)%nat; reflexivity.
Qed.
Lemma invalidate_statm page text ar : statm page text ar -> invalidate page (Some text) = Ok (mk_pstat page (fst ar) (snd ar)).
Proof.
  intros (a & b & c & d & e & H & F1 & F2 & _). unfold invalidate. rewrite (scan_line _ _ H). cbn [length Nat.leb firstn map]. now rewrite !Z.min_l by lia.
Qed.
Lemma natural_nonneg s n : natural 10 s n -> 0 <= n.
Proof.
  intros (_ & ds & F & ->). unfold value. assert (G : forall ds acc, Forall (fun d => 0 <= d) ds -> 0 <= acc -> 0 <= fold_left (fun a d => 10 * a + d) ds acc).
  { clear. induction ds as [|d ds IH]; intros acc F A; [exact A|]. cbn [fold_left]. inversion F as [|? ? Hd Fs]; subst. apply IH; [exact Fs|lia]. }
  apply G; [|lia]. clear G. induction F as [|c d s ds H F IH]; constructor; [unfold is_digit in H; lia|exact IH].
Qed.
Definition sees (page : Z) (p : pstat) (ar : Z * Z) : Prop := p = mk_pstat page (fst ar) (snd ar) /\ 0 <= fst ar * page < 2 ^ 64 /\ 0 <= snd ar * page < 2 ^ 64.
Lemma sees_statm page text ar : 0 <= page -> statm page text ar -> sees page (mk_pstat page (fst ar) (snd ar)) ar.
Proof.
  intros P (a & b & c & d & e & H & F1 & F2 & F3 & F4). split; [reflexivity|]. inversion H as [|s n t ns N1 H1]; subst. inversion H1 as [|s2 n2 t2 ns2 N2 H2]; subst. apply natural_nonneg in N1, N2. split; nia.
Qed.
Lemma getCached_sees page p ar w : sees page p ar -> getCached p w = bytes_of page ar w.
Proof. intros (-> & B1 & B2). destruct w; cbn; [| |reflexivity]; now rewrite Z.mod_small. Qed.
Lemma pstep_spec page : 0 <= page -> forall ops nops p ar, sees page p ar ->
  Forall2 (fun o n => fst o = fst n /\ exists text, snd o = Some text /\ statm page text (snd n)) ops nops -> run_ops (pstep page) p ops = run_ops (pspec page) ar nops.
Proof.
  intros P. induction ops as [|(o, f) ops IH]; intros nops p ar S F; inversion F as [|? (o', ar') ? nops' (Eo & text & Ef & St) F']; subst; [reflexivity|]. cbn [fst snd] in *. subst o' f.
  pose proof (sees_statm page text ar' P St) as S'. pose proof (invalidate_statm page text ar' St) as E. cbn [run_ops]. destruct o as [w|w| |w]; cbn [pstep pspec].
  - rewrite E. cbn [bind]. rewrite (getCached_sees page _ ar' w S'). destruct (bytes_of page ar' w) as [v| | |]; cbn [bind]; [|reflexivity..]. f_equal. now apply IH.
  - rewrite (getCached_sees page _ ar w S). destruct (bytes_of page ar w) as [v| | |]; cbn [bind]; [|reflexivity..]. f_equal. now apply IH.
  - rewrite E. cbn [bind]. f_equal. now apply IH.
  - replace (match bytes_of page ar' w with Ok _ => true | _ => false end) with (supported w) by (destruct w; reflexivity). f_equal. now apply IH.
Qed.
(** C103. In every sequence of get, getCached, invalidate and supported calls on a process
    whose file has the seven numbers at each look, get answers with the bytes of now,
    getCached with those of the latest look (the constructor, a get or an invalidate), a
    kind of statistic that is not supported aborts, and supported tells which are. *)
Theorem C103_process_statistics : forall page text ar ops nops, 0 <= page -> statm page text ar ->
  Forall2 (fun o n => fst o = fst n /\ exists t, snd o = Some t /\ statm page t (snd n)) ops nops ->
  prun page (Some text) ops = run_ops (pspec page) ar nops.
Proof. intros page text ar ops nops P S F. unfold prun. rewrite (invalidate_statm page text ar S). apply pstep_spec; [exact P| |exact F]. now apply (sees_statm page text). Qed.
Print Assumptions C103_process_statistics.
(** A file that cannot be read, as that of a process that has ended, or that has fewer
    numbers stops the program instead of giving a number. *)
Theorem C103_unreadable : forall page text ar ops nops bad w rest, 0 <= page -> statm page text ar ->
  Forall2 (fun o n => fst o = fst n /\ exists t, snd o = Some t /\ statm page t (snd n)) ops nops ->
  (bad = None \/ bad = Some [] \/ exists t ns, bad = Some t /\ line t ns /\ (length ns < 7)%nat) ->
  (forall r, In r (run_ops (pspec page) ar nops) -> exists a, r = Ok a) ->
  prun page (Some text) (ops ++ (PGet w, bad) :: rest) = run_ops (pspec page) ar nops ++ [Abort] /\ prun page bad ops = [Abort].
Proof.
  intros page text ar ops nops bad w rest P S F B O. assert (EB : invalidate page bad = Abort).
  { destruct B as [->|[->|(t & ns & -> & L & N)]]; [reflexivity..|]. unfold invalidate. rewrite (scan_line _ _ L). destruct (Nat.leb_spec 7 (length ns)); [lia|reflexivity]. }
  split; [|unfold prun; now rewrite EB]. unfold prun. rewrite (invalidate_statm page text ar S). pose proof (sees_statm page text ar P S) as SS. revert SS O. generalize (mk_pstat page (fst ar) (snd ar)). clear S text. revert ar.
  induction F as [|(o, f) (o', ar') ops nops (Eo & t & Ef & St) F IH]; intros ar p SS O.
  - cbn [app run_ops pstep]. rewrite EB. reflexivity.
  - cbn [fst snd] in *. subst o' f. pose proof (sees_statm page t ar' P St) as S'. pose proof (invalidate_statm page t ar' St) as E. cbn [app run_ops] in *. destruct o as [v|v| |v]; cbn [pstep pspec] in *.
    + rewrite E. cbn [bind]. rewrite (getCached_sees page _ ar' v S'). destruct (bytes_of page ar' v) as [z| | |]; cbn [bind] in *; [|destruct (O _ (or_introl eq_refl)); discriminate..]. cbn [app]. f_equal. apply IH; [exact S'|]. intros r Hr. apply O. now right.
    + rewrite (getCached_sees page _ ar v SS). destruct (bytes_of page ar v) as [z| | |]; cbn [bind] in *; [|destruct (O _ (or_introl eq_refl)); discriminate..]. cbn [app]. f_equal. apply IH; [exact SS|]. intros r Hr. apply O. now right.
    + rewrite E. cbn [bind app] in *. f_equal. apply IH; [exact S'|]. intros r Hr. apply O. now right.
    + cbn [app]. f_equal; [destruct v; reflexivity|]. apply IH; [exact SS|]. intros r Hr. apply O. now right.
Qed.
Print Assumptions C103_unreadable.
(** "3 2 0 1 0 1 0\n" and later "12 7 0 1 0 1 0\n" with pages of 4096 bytes *)
Example C103_ex : let f1 := [51; 32; 50; 32; 48; 32; 49; 32; 48; 32; 49; 32; 48; 10] in let f2 := 49 :: 50 :: 32 :: 55 :: skipn 3 f1 in
  statm 4096 f1 (3, 2) /\ statm 4096 f2 (12, 7) /\
  prun 4096 (Some f1) [(PGetCached AddressSize, Some f2); (PGet ResidentSize, Some f2); (PGetCached AddressSize, Some f1); (PSupported OtherType, Some f1); (PGet AddressSize, Some [51; 10])]
  = [Ok (PNum 12288); Ok (PNum 28672); Ok (PNum 49152); Ok (PBool false); Abort].
Proof.
  cbv zeta. assert (D : forall d, 0 <= d <= 9 -> natural 10 [48 + d] d) by (intros d H; split; [discriminate|]; exists [d]; split; [constructor; [unfold is_digit; lia|constructor]|unfold value; cbn [fold_left]; lia]).
  assert (T : line (48 :: 32 :: 49 :: 32 :: 48 :: 32 :: 49 :: 32 :: 48 :: [10]) [0; 1; 0; 1; 0]).
  { apply (L_more [48 + 0] 0); [apply D; lia|]. apply (L_more [48 + 1] 1); [apply D; lia|]. apply (L_more [48 + 0] 0); [apply D; lia|]. apply (L_more [48 + 1] 1); [apply D; lia|]. apply (L_last [48 + 0] 0). apply D; lia. }
  split; [|split; [|vm_compute; reflexivity]].
  - exists 0, 1, 0, 1, 0. split; [|cbn; lia]. apply (L_more [48 + 3] 3); [apply D; lia|]. apply (L_more [48 + 2] 2); [apply D; lia|]. exact T.
  - exists 0, 1, 0, 1, 0. split; [|cbn; lia]. apply (L_more [49; 50] 12); [split; [discriminate|]; exists [1; 2]; split; [repeat constructor; unfold is_digit; lia|reflexivity]|]. apply (L_more [48 + 7] 7); [apply D; lia|]. exact T.
Qed.
