(** Proofs about the model of program options. *)
From Coq Require Import List Arith ZArith Bool Lia ZifyBool.
From Verif Require Import Common StrInt_Model ProgOpt_Spec ProgOpt_Model.
Import ListNotations.

(** getHelpWidth *)
Lemma decimal_mono : forall s a, (0 <= a)%Z -> forallb (fun c => (48 <=? c) && (c <=? 57))%Z s = true ->
  (a <= fold_left (fun a c => 10 * a + (c - 48)) s a)%Z.
Proof.
  induction s as [|c s IH]; intros a Ha H; cbn [fold_left]; [lia|]. cbn [forallb] in H.
  apply andb_prop in H as [H1 H2]. specialize (IH (10 * a + (c - 48))%Z ltac:(lia) H2). lia.
Qed.
Lemma digit10 : forall c, digit_of 10 c = if ((48 <=? c) && (c <=? 57))%Z then Some (c - 48)%Z else None.
Proof.
  intros c. unfold digit_of. destruct ((48 <=? c) && (c <=? 57))%Z eqn:A.
  - replace (c - 48 <? 10)%Z with true by lia. reflexivity.
  - destruct ((97 <=? c) && (c <=? 102))%Z eqn:B; [replace (c - 87 <? 10)%Z with false by lia; reflexivity|].
    destruct ((65 <=? c) && (c <=? 70))%Z eqn:C; [replace (c - 55 <? 10)%Z with false by lia; reflexivity|].
    reflexivity.
Qed.
Lemma cast_digits_spec : forall limit s a, (0 <= a <= limit)%Z ->
  cast_digits limit s a =
  if forallb (fun c => (48 <=? c) && (c <=? 57))%Z s && (fold_left (fun a c => 10 * a + (c - 48)) s a <=? limit)%Z
  then Ok (fold_left (fun a c => 10 * a + (c - 48))%Z s a) else Abort.
Proof.
  induction s as [|c s IH]; intros a Ha; cbn [cast_digits forallb fold_left].
  - replace (a <=? limit)%Z with true by lia. reflexivity.
  - rewrite digit10. destruct ((48 <=? c) && (c <=? 57))%Z eqn:A; [|reflexivity]. cbn [andb].
    cbv zeta. destruct (10 * a + (c - 48) <=? limit)%Z eqn:B.
    + apply IH. lia.
    + destruct (forallb (fun c => (48 <=? c) && (c <=? 57))%Z s) eqn:C; [|reflexivity]. cbn [andb].
      pose proof (decimal_mono s (10 * a + (c - 48))%Z ltac:(lia) C) as M.
      replace (fold_left (fun a c => 10 * a + (c - 48)) s (10 * a + (c - 48)) <=? limit)%Z with false by lia.
      reflexivity.
Qed.
Lemma cast_number_spec : forall s, cast_number (2 ^ 32 - 1) s = if plain_number s then Ok (decimal s) else Abort.
Proof.
  intros [|c s]; [reflexivity|]. unfold cast_number.
  rewrite cast_digits_spec by lia. unfold plain_number. cbn [length Nat.eqb negb andb].
  unfold decimal.
  destruct (forallb _ (c :: s)); [|reflexivity]. cbn [andb].
  replace (fold_left (fun a c => 10 * a + (c - 48))%Z (c :: s) 0%Z <? 2 ^ 32)%Z
    with (fold_left (fun a c => 10 * a + (c - 48))%Z (c :: s) 0%Z <=? 2 ^ 32 - 1)%Z by lia.
  reflexivity.
Qed.
Lemma width_ok : forall columns,
  if columns_ok columns then exists w, getHelpWidth columns = Ok w else getHelpWidth columns = Abort.
Proof.
  intros [s|]; [|cbn; eauto]. unfold getHelpWidth, stringToInteger, lexical_cast.
  change (10 =? 10)%Z with true. cbn [bits is_signed]. change (32 =? 8)%Z with false. cbv iota.
  destruct s as [|c r]; [reflexivity|].
  unfold cast_minus, tmax. cbn [bits is_signed]. rewrite !cast_number_spec.
  destruct (Z.eqb_spec c 45) as [->|N1].
  { cbn [columns_ok]. destruct (plain_number r); cbn; eauto. }
  destruct (Z.eqb_spec c 43) as [->|N2].
  { cbn [columns_ok]. destruct (plain_number r); cbn; eauto. }
  replace (columns_ok (Some (c :: r))) with (plain_number (c :: r)).
  - destruct (plain_number (c :: r)); eauto.
  - cbn [columns_ok]. destruct c as [|p|p]; try reflexivity.
    do 6 (destruct p as [p|p|]; try reflexivity); congruence.
Qed.

Section Proofs.
Context {V : Type}.
Notation text := (list Z).
Variable boost : parsers V.
Variable columns : option text.
Notation reg := (reg V).
Notation obj := (obj V).
Notation opt := (opt V).

(** Names *)
Lemma long_spec : forall n : text,
  match find_comma n with
  | Some p => firstn p n = long n /\ bad_name n = negb (0 <? p)
  | None => n = long n /\ bad_name n = false
  end.
Proof.
  induction n as [|c n IH]; cbn [find_comma long bad_name]; [auto|].
  destruct (Z.eqb_spec c 44) as [->|N]; [auto|].
  destruct (find_comma n) as [p|]; cbn [firstn].
  - destruct IH as [-> _]. auto.
  - destruct IH as [<- _]. auto.
Qed.

(** Variables maps *)
Lemma text_eqb_refl : forall a : text, text_eqb a a = true.
Proof. intros a. unfold text_eqb. destruct (list_eq_dec Z.eq_dec a a); congruence. Qed.
Lemma text_eqb_true : forall a b : text, text_eqb a b = true -> a = b.
Proof. intros a b. unfold text_eqb. destruct (list_eq_dec Z.eq_dec a b); congruence. Qed.
Lemma var_at_app : forall (m : var_map) n k (v : V), var_at (m ++ [(k, v)]) n =
  match var_at m n with Some x => Some x | None => if text_eqb k n then Some v else None end.
Proof.
  induction m as [|[a b] m IH]; intros n k v; cbn; [reflexivity|].
  destruct (text_eqb a n); [reflexivity|apply IH].
Qed.
Lemma var_at_store : forall (f : list (text * V)) m n,
  var_at (store f m) n = match var_at m n with Some x => Some x | None => found_for n f end.
Proof.
  induction f as [|[k v] f IH]; intros m n; cbn; [destruct (var_at m n); reflexivity|].
  rewrite IH. destruct (text_eqb k n) eqn:E.
  - apply text_eqb_true in E as ->. destruct (var_at m n) eqn:A; [rewrite A; reflexivity|].
    rewrite var_at_app, A, text_eqb_refl. reflexivity.
  - destruct (var_at m k) eqn:A; [reflexivity|]. rewrite var_at_app, E.
    destruct (var_at m n); reflexivity.
Qed.
Lemma found_app : forall (a b : list (text * V)) n,
  found_for n (a ++ b) = match found_for n a with Some x => Some x | None => found_for n b end.
Proof.
  induction a as [|[k v] a IH]; intros b n; cbn; [reflexivity|].
  destruct (text_eqb k n); auto.
Qed.

(** Updates *)
Lemma update_length : forall (l : list obj) i x, length (update l i x) = length l.
Proof. induction l as [|y l IH]; intros [|i] x; cbn; auto. Qed.
Lemma nth_update : forall (l : list obj) i x j, i < length l ->
  nth_error (update l i x) j = if j =? i then Some x else nth_error l j.
Proof.
  induction l as [|y l IH]; intros i x j H; cbn in H; [lia|].
  destruct i as [|i]; destruct j as [|j]; cbn [update nth_error Nat.eqb]; try reflexivity.
  apply IH. lia.
Qed.

(** What the state keeps of a history *)
Definition obj_ok (h : hist V) (i : nat) (o : opt) (x : obj) : Prop :=
  m_alive x = true /\ m_flag x = o_flag o /\ m_def x = o_def o /\
  (o_flag o = false -> m_saved x = holds i (o_name o) h) /\
  (o_flag o = true -> m_val x = flagged i (o_name o) h).
Definition objs_ok (h : hist V) (l : list obj) : Prop :=
  length l = length (options h) /\
  forall i o, nth_error (options h) i = Some o -> exists x, nth_error l i = Some x /\ obj_ok h i o x.

Fixpoint index {A} (n : nat) (l : list A) : list (nat * A) :=
  match l with [] => [] | x :: r => (n, x) :: index (S n) r end.
Definition to_init (p : nat * opt) : initfn := mk_init (fst p) (o_name (snd p)) (negb (o_hidden (snd p))).
Definition to_pair (p : nat * opt) : text * nat := (o_name (snd p), fst p).
Definition decls (hidden : bool) (l : list opt) : list decl :=
  map (fun o => mk_decl (o_name o) (o_flag o)) (filter (fun o => Bool.eqb (o_hidden o) hidden) l).
Lemma index_app : forall A (a b : list A) n, index n (a ++ b) = index n a ++ index (n + length a) b.
Proof.
  induction a as [|x a IH]; intros b n; cbn; [rewrite Nat.add_0_r; reflexivity|].
  rewrite IH. replace (S n + length a) with (n + S (length a)) by lia. reflexivity.
Qed.
Lemma in_index : forall A (l : list A) n i o, In (i, o) (index n l) -> n <= i /\ nth_error l (i - n) = Some o.
Proof.
  induction l as [|x l IH]; intros n i o H; cbn in H; [contradiction|]. destruct H as [H|H].
  - injection H as <- <-. rewrite Nat.sub_diag. auto.
  - apply IH in H as [H1 H2]. split; [lia|]. replace (i - n) with (S (i - S n)) by lia. exact H2.
Qed.
Lemma decls_app : forall b l1 l2, decls b (l1 ++ l2) = decls b l1 ++ decls b l2.
Proof. intros. unfold decls. rewrite filter_app, map_app. reflexivity. Qed.

Definition lists_ok (A B : list opt) (g : reg) : Prop :=
  r_init g = map to_init (index (length A) B) /\
  r_desc g = decls false A /\ r_hidden g = decls true A /\
  r_pairs g = map to_pair (index 0 A).
Definition R (g : reg) (h : hist V) : Prop :=
  objs_ok h (r_objs g) /\ exists A B, options h = A ++ B /\ lists_ok A B g /\ (columns_ok columns = false -> A = []).

Lemma object_ok : forall g h i o, objs_ok h (r_objs g) -> nth_error (options h) i = Some o ->
  exists x, object g i = Ok x /\ obj_ok h i o x /\ nth_error (r_objs g) i = Some x.
Proof.
  intros g h i o [_ H] E. destruct (H i o E) as (x & E1 & E2). exists x. unfold object. rewrite E1.
  pose proof E2 as (-> & _). auto.
Qed.
Lemma object_none : forall g h i, objs_ok h (r_objs g) -> nth_error (options h) i = None -> object g i = UB.
Proof.
  intros g h i [L _] E. unfold object. apply nth_error_None in E.
  replace (nth_error (r_objs g) i) with (@None obj); [reflexivity|].
  symmetry. apply nth_error_None. lia.
Qed.

(** runProgramOptionInitFns *)
Lemma run_inits_ok : forall h w, getHelpWidth columns = Ok w -> forall B A g,
  objs_ok h (r_objs g) -> options h = A ++ B ->
  r_desc g = decls false A -> r_hidden g = decls true A -> r_pairs g = map to_pair (index 0 A) ->
  exists g', run_inits columns g (map to_init (index (length A) B)) = Ok g' /\
    r_objs g' = r_objs g /\ r_desc g' = declared false h /\ r_hidden g' = declared true h /\
    r_pairs g' = map to_pair (index 0 (options h)).
Proof.
  intros h w W. induction B as [|o B IH]; intros A g Ho E E1 E2 E3; cbn [index map run_inits].
  - rewrite app_nil_r in E. exists g. unfold declared. rewrite E. auto.
  - destruct (object_ok g h (length A) o Ho) as (x & X & (_ & Xf & _) & _).
    { rewrite E, nth_error_app2, Nat.sub_diag by lia. reflexivity. }
    unfold doInit. cbn [i_obj to_init fst snd i_name i_help]. rewrite X. cbn [bind].
    rewrite W. cbn [bind]. rewrite negb_involutive, Xf, E1, E2, E3.
    match goal with |- exists g', run_inits _ ?G _ = _ /\ _ =>
      specialize (IH (A ++ [o]) G) end.
    cbn [r_objs r_init r_desc r_hidden r_pairs] in IH.
    rewrite app_length in IH. cbn [length] in IH. rewrite Nat.add_1_r in IH.
    apply IH; clear IH.
    + exact Ho.
    + rewrite <- app_assoc. exact E.
    + rewrite decls_app. unfold decls. cbn [filter]. destruct (o_hidden o); cbn; rewrite ?app_nil_r; reflexivity.
    + rewrite decls_app. unfold decls. cbn [filter]. destruct (o_hidden o); cbn; rewrite ?app_nil_r; reflexivity.
    + rewrite index_app, map_app. reflexivity.
Qed.
Lemma help_first : forall h : hist V, exists l, options h = help :: l.
Proof. induction h as [|[] h IH]; cbn; eauto. destruct IH as [l ->]. cbn. eauto. Qed.

Definition full (g : reg) (h : hist V) : Prop :=
  objs_ok h (r_objs g) /\ r_init g = [] /\ r_desc g = declared false h /\ r_hidden g = declared true h /\
  r_pairs g = map to_pair (index 0 (options h)).
Lemma full_R : forall g h, columns_ok columns = true -> full g h -> R g h.
Proof.
  intros g h C (H1 & H2 & H3 & H4 & H5). split; [exact H1|]. exists (options h), [].
  rewrite app_nil_r. split; [reflexivity|]. split; [repeat split; assumption|congruence].
Qed.
Lemma init_ok : forall g h w, getHelpWidth columns = Ok w -> R g h ->
  exists g', runProgramOptionInitFns columns g = Ok g' /\ full g' h.
Proof.
  intros g h w W (Ho & A & B & E & (E0 & E1 & E2 & E3) & _).
  destruct (run_inits_ok h w W B A g Ho E E1 E2 E3) as (g' & X & X1 & X2 & X3 & X4).
  unfold runProgramOptionInitFns. rewrite E0, X. cbn [bind]. eexists. split; [reflexivity|].
  split; [cbn; rewrite X1; exact Ho|]. cbn. auto.
Qed.

(** processOptions *)
Definition saved_of (f : list (text * V)) (o : opt) (x : obj) : obj :=
  match found_for (long (o_name o)) f with
  | None => x
  | Some v => if m_flag x then mk_obj (m_saved x) (m_def x) true (m_flag x) true
              else mk_obj (Some v) (m_def x) (m_val x) (m_flag x) true
  end.
Lemma process_ok : forall m f, (forall n, var_at m n = found_for n f) -> forall l k g,
  (forall i o, In (i, o) (index k l) -> exists x, nth_error (r_objs g) i = Some x /\ m_alive x = true) ->
  if existsb (fun o => bad_name (o_name o)) l
  then processOptions g (map to_pair (index k l)) m = Abort
  else exists g', processOptions g (map to_pair (index k l)) m = Ok g' /\
    r_init g' = r_init g /\ r_desc g' = r_desc g /\ r_hidden g' = r_hidden g /\ r_pairs g' = r_pairs g /\
    length (r_objs g') = length (r_objs g) /\
    (forall i, (i < k \/ k + length l <= i) -> nth_error (r_objs g') i = nth_error (r_objs g) i) /\
    (forall i o x, In (i, o) (index k l) -> nth_error (r_objs g) i = Some x ->
       nth_error (r_objs g') i = Some (saved_of f o x)).
Proof.
  intros m f Hm. induction l as [|o l IH]; intros k g Hx; cbn [index map processOptions existsb].
  - exists g. repeat split; auto. intros i o x [].
  - cbn [to_pair fst snd]. pose proof (long_spec (o_name o)) as L.
    assert (K : (if bad_name (o_name o) then Abort else Ok (long (o_name o))) =
      match find_comma (o_name o) with
      | Some pos => if negb (0 <? pos) then Abort else Ok (firstn pos (o_name o))
      | None => Ok (o_name o) end).
    { destruct (find_comma (o_name o)) as [p|]; destruct L as [L1 L2]; rewrite L2.
      - rewrite L1. reflexivity.
      - rewrite <- L1. reflexivity. }
    rewrite <- K. destruct (bad_name (o_name o)) eqn:Bn; [reflexivity|]. cbn [orb bind].
    destruct (Hx k o (or_introl eq_refl)) as (x & X1 & X2).
    assert (Hk : k < length (r_objs g)) by (apply nth_error_Some; congruence).
    assert (Sv : exists g1, save g k (var_at m (long (o_name o))) = Ok g1 /\
       r_init g1 = r_init g /\ r_desc g1 = r_desc g /\ r_hidden g1 = r_hidden g /\ r_pairs g1 = r_pairs g /\
       length (r_objs g1) = length (r_objs g) /\
       (forall i, nth_error (r_objs g1) i = if i =? k then Some (saved_of f o x) else nth_error (r_objs g) i)).
    { unfold save, object. rewrite X1, X2. cbn [bind]. rewrite Hm. unfold saved_of.
      destruct (found_for (long (o_name o)) f) as [v|].
      - destruct (m_flag x) eqn:Fx; eexists; (split; [reflexivity|]); cbn; repeat split; auto;
          try apply update_length; intros i; apply nth_update; exact Hk.
      - exists g. repeat split; auto. intros i. destruct (Nat.eqb_spec i k) as [->|]; auto. }
    destruct Sv as (g1 & -> & V1 & V2 & V3 & V4 & V5 & V6). cbn [bind].
    specialize (IH (S k) g1).
    assert (Hx1 : forall i o0, In (i, o0) (index (S k) l) ->
              exists x0, nth_error (r_objs g1) i = Some x0 /\ m_alive x0 = true).
    { intros i o0 I. destruct (in_index _ _ _ _ _ I) as [I1 _]. rewrite V6.
      destruct (Nat.eqb_spec i k); [lia|]. apply (Hx i o0). right. exact I. }
    specialize (IH Hx1). destruct (existsb (fun o0 => bad_name (o_name o0)) l); [exact IH|].
    destruct IH as (g' & W0 & W1 & W2 & W3 & W4 & W5 & W6 & W7).
    exists g'. rewrite W1, W2, W3, W4, W5, V1, V2, V3, V4, V5. repeat split; auto.
    + intros i Hi. cbn [length] in Hi. rewrite W6 by lia. rewrite V6. destruct (Nat.eqb_spec i k); [lia|reflexivity].
    + intros i o0 x0 I E. destruct I as [I|I].
      * injection I as <- <-. rewrite W6 by lia. rewrite V6, Nat.eqb_refl. congruence.
      * apply (W7 i o0 x0 I). rewrite V6. destruct (in_index _ _ _ _ _ I) as [I1 _].
        destruct (Nat.eqb_spec i k); [lia|exact E].
Qed.
Lemma nth_index : forall A (l : list A) n i o, nth_error l i = Some o -> In (n + i, o) (index n l).
Proof.
  induction l as [|x l IH]; intros n [|i] o H; cbn in H; try discriminate.
  - injection H as ->. rewrite Nat.add_0_r. left. reflexivity.
  - right. replace (n + S i) with (S n + i) by lia. apply IH. exact H.
Qed.
Lemma process_full : forall g h m f, (forall n, var_at m n = found_for n f) -> full g h ->
  if existsb (fun o => bad_name (o_name o)) (options h)
  then processOptions g (r_pairs g) m = Abort
  else exists g', processOptions g (r_pairs g) m = Ok g' /\ full g' (EParsed f :: h).
Proof.
  intros g h m f Hm (H1 & H2 & H3 & H4 & H5). rewrite H5.
  pose proof (process_ok m f Hm (options h) 0 g) as P.
  assert (Hx : forall i o, In (i, o) (index 0 (options h)) ->
            exists x, nth_error (r_objs g) i = Some x /\ m_alive x = true).
  { intros i o I. apply in_index in I as [_ I]. rewrite Nat.sub_0_r in I.
    destruct H1 as [_ H1]. destruct (H1 i o I) as (x & X & (Y & _)). eauto. }
  specialize (P Hx). destruct (existsb _ (options h)); [exact P|].
  destruct P as (g' & W0 & W1 & W2 & W3 & W4 & W5 & W6 & W7).
  exists g'. split; [exact W0|]. split; [|rewrite W1, W2, W3, W4; cbn; auto].
  destruct H1 as [L H1]. split; [cbn; congruence|].
  cbn [options]. intros i o E. destruct (H1 i o E) as (x & X1 & (Y1 & Y2 & Y3 & Y4 & Y5)).
  exists (saved_of f o x). split; [apply (W7 i o x); [apply (nth_index _ (options h) 0 i o E)|exact X1]|].
  unfold obj_ok, saved_of. cbn [holds flagged]. destruct (found_for (long (o_name o)) f) as [v|].
  - rewrite Y2. destruct (o_flag o); cbn; repeat split; auto; discriminate.
  - auto.
Qed.

(** Every operation *)
Lemma start_R : R start [].
Proof.
  split.
  - split; [reflexivity|]. intros [|i] o E; cbn in E; [|destruct i; discriminate].
    injection E as <-. eexists. split; [reflexivity|]. repeat split; discriminate.
  - exists [], [help]. split; [reflexivity|]. split; [repeat split|reflexivity].
Qed.
Lemma other_event : forall h e (l : list obj),
  options (e :: h) = options h ->
  (forall i o x, nth_error (options h) i = Some o -> obj_ok h i o x -> nth_error l i = Some x ->
     obj_ok (e :: h) i o x) -> objs_ok h l -> objs_ok (e :: h) l.
Proof.
  intros h e l E H [L O]. split; [rewrite E; exact L|]. rewrite E. intros i o N.
  destruct (O i o N) as (x & X1 & X2). eauto.
Qed.
Lemma objs_put : forall g h e i o x x', objs_ok h (r_objs g) -> options (e :: h) = options h ->
  nth_error (options h) i = Some o -> nth_error (r_objs g) i = Some x ->
  obj_ok (e :: h) i o x' ->
  (forall j o y, j <> i -> nth_error (options h) j = Some o -> obj_ok h j o y -> obj_ok (e :: h) j o y) ->
  objs_ok (e :: h) (r_objs (put g i x')).
Proof.
  intros g h e i o x x' [L O] E N X Y H. cbn [put r_objs].
  assert (Hi : i < length (r_objs g)) by (apply nth_error_Some; congruence).
  split; [rewrite update_length, E; exact L|]. rewrite E. intros j p Nj.
  rewrite nth_update by exact Hi. destruct (Nat.eqb_spec j i) as [->|D].
  - exists x'. split; [reflexivity|]. congruence.
  - destruct (O j p Nj) as (y & Y1 & Y2). exists y. auto.
Qed.
Lemma R_put : forall g h e i x', R g h -> options (e :: h) = options h ->
  objs_ok (e :: h) (r_objs (put g i x')) -> R (put g i x') (e :: h).
Proof.
  intros g h e i x' (_ & A & B & EA & (E0 & E1 & E2 & E3) & C) E H. split; [exact H|]. exists A, B.
  rewrite E. split; [exact EA|]. split; [|exact C]. repeat split; assumption.
Qed.
Lemma init_abort : forall g h, columns_ok columns = false -> R g h -> runProgramOptionInitFns columns g = Abort.
Proof.
  intros g h C (Ho & A & B & E & (E0 & E1 & E2 & E3) & CA). specialize (CA C). subst A.
  destruct (help_first h) as [l El]. cbn in E. rewrite El in E. subst B.
  unfold runProgramOptionInitFns. rewrite E0. cbn [length index map run_inits].
  destruct (object_ok g h 0 help Ho ltac:(rewrite El; reflexivity)) as (x & X & _).
  unfold doInit. cbn [to_init i_obj fst]. rewrite X. cbn [bind].
  pose proof (width_ok columns) as W. rewrite C in W. rewrite W. reflexivity.
Qed.

Theorem step_ok : forall o g h, R g h ->
  match pspec boost columns h o with
  | Ok (h', out) => exists g', pstep boost columns g o = Ok (g', out) /\ R g' h'
  | Abort => pstep boost columns g o = Abort
  | UB => pstep boost columns g o = UB
  | Fuel => False
  end.
Proof.
  intros o g h HR. pose proof HR as (Ho & A & B & E & (E0 & E1 & E2 & E3) & CA).
  destruct o as [n hd fl d|i v|i b|i|args allow|file]; cbn [pspec pstep].
  - unfold construct. destruct Ho as [L O]. rewrite L. eexists. split; [reflexivity|]. split.
    + split; cbn [options r_objs]; [rewrite !app_length, L; reflexivity|].
      intros i o N. destruct (Nat.lt_ge_cases i (length (options h))) as [Hi|Hi].
      * rewrite nth_error_app1 in N by exact Hi. destruct (O i o N) as (x & X1 & (Y1 & Y2 & Y3 & Y4 & Y5)).
        exists x. rewrite nth_error_app1 by lia. split; [exact X1|].
        unfold obj_ok. cbn [holds flagged]. destruct (Nat.eqb_spec i (length (options h))); [lia|]. auto.
      * rewrite nth_error_app2 in N by exact Hi.
        destruct (i - length (options h)) as [|k] eqn:K; [|destruct k; discriminate N].
        injection N as <-. eexists. rewrite nth_error_app2, L, K by lia. split; [reflexivity|].
        unfold obj_ok. cbn [holds flagged m_alive m_flag m_def m_saved m_val o_flag o_def o_name].
        replace (i =? length (options h)) with true by (symmetry; apply Nat.eqb_eq; lia). auto.
    + exists A, (B ++ [mk_opt n hd fl (Some d)]). cbn [options]. rewrite E, app_assoc.
      split; [reflexivity|]. split; [|exact CA]. unfold lists_ok. cbn [r_init r_desc r_hidden r_pairs].
      rewrite index_app, map_app, E0. cbn [index map].
      unfold to_init at 3. cbn [fst snd o_name o_hidden]. rewrite app_length. auto.
  - unfold set_value. destruct (nth_error (options h) i) as [o|] eqn:N.
    2: { rewrite (object_none g h i Ho N). reflexivity. }
    destruct (object_ok g h i o Ho N) as (x & X & Y & X1). rewrite X. cbn [bind].
    pose proof Y as (Y1 & Y2 & Y3 & Y4 & Y5). rewrite Y2.
    destruct (o_flag o) eqn:F; [reflexivity|]. cbn [bind]. eexists. split; [reflexivity|].
    apply R_put; [exact HR|reflexivity|]. apply (objs_put g h _ i o x); auto.
    + unfold obj_ok. cbn. rewrite Nat.eqb_refl, F. repeat split; auto; discriminate.
    + intros j p y D _ (Z1 & Z2 & Z3 & Z4 & Z5). unfold obj_ok. cbn.
      destruct (Nat.eqb_spec j i); [contradiction|]. auto.
  - unfold set_flag. destruct (nth_error (options h) i) as [o|] eqn:N.
    2: { rewrite (object_none g h i Ho N). reflexivity. }
    destruct (object_ok g h i o Ho N) as (x & X & Y & X1). rewrite X. cbn [bind].
    pose proof Y as (Y1 & Y2 & Y3 & Y4 & Y5). rewrite Y2.
    destruct (o_flag o) eqn:F; [|reflexivity]. cbn [bind]. eexists. split; [reflexivity|].
    apply R_put; [exact HR|reflexivity|]. apply (objs_put g h _ i o x); auto.
    + unfold obj_ok. cbn. rewrite Nat.eqb_refl, F. repeat split; auto; discriminate.
    + intros j p y D _ (Z1 & Z2 & Z3 & Z4 & Z5). unfold obj_ok. cbn.
      destruct (Nat.eqb_spec j i); [contradiction|]. auto.
  - destruct (nth_error (options h) i) as [o|] eqn:N.
    2: { rewrite (object_none g h i Ho N). reflexivity. }
    destruct (object_ok g h i o Ho N) as (x & X & Y & X1). rewrite X. cbn [bind].
    destruct Y as (Y1 & Y2 & Y3 & Y4 & Y5). unfold get, used. rewrite Y2, Y3.
    destruct o as [n hd [] d]; cbn [o_flag o_def o_name] in *.
    + rewrite Y5 by reflexivity. cbn [bind]. eauto.
    + rewrite Y4 by reflexivity. destruct d as [d|].
      * destruct (holds i n h); cbn [bind]; eauto.
      * destruct (holds i n h) eqn:Hh; cbn [bind]; [|reflexivity]. exfalso.
        clear - N. revert N. assert (D : forall h : hist V, forall i n hd fl, nth_error (options h) i = Some (mk_opt n hd fl None) -> fl = true).
        { clear. induction h as [|[n0 hd0 fl0 d0|j v|j b|f] h IH]; intros i n hd fl; cbn [options]; eauto.
          - destruct i as [|i]; cbn; [intros H; injection H; auto|destruct i; discriminate].
          - destruct (Nat.lt_ge_cases i (length (options h))) as [Hi|Hi].
            + rewrite nth_error_app1 by exact Hi. eauto.
            + rewrite nth_error_app2 by exact Hi. destruct (i - length (options h)) as [|k]; cbn; [discriminate|destruct k; discriminate]. }
        intros N. apply D in N. discriminate.
  - pose proof (width_ok columns) as W. unfold parseCommandLine. destruct (columns_ok columns) eqn:CK; cbn [negb].
    2: { rewrite (init_abort g h CK HR). reflexivity. }
    destruct W as [w W]. destruct (init_ok g h w W HR) as (g1 & -> & F). cbn [bind].
    pose proof F as (F1 & F2 & F3 & F4 & F5). rewrite F3.
    destruct (on_args boost (declared false h) args) as [[f1 rest]|]; [|exists g1; split; [reflexivity|apply (full_R _ _ CK); exact F]].
    rewrite F4.
    destruct (on_args boost (declared true h) rest) as [[f2 over]|]; [|exists g1; split; [reflexivity|apply (full_R _ _ CK); exact F]].
    rewrite negb_orb. destruct (negb allow && negb (length over =? 0)); [reflexivity|].
    pose proof (process_full g1 h (store f2 (store f1 [])) (f1 ++ f2)) as P.
    assert (Hm : forall n, var_at (store f2 (store f1 [])) n = found_for n (f1 ++ f2)).
    { intros n. rewrite !var_at_store, found_app. reflexivity. }
    specialize (P Hm F). destruct (existsb _ (options h)); [rewrite P; reflexivity|].
    destruct P as (g2 & -> & F'). cbn [bind]. pose proof F' as ((L' & O') & _).
    destruct (help_first (EParsed (f1 ++ f2) :: h)) as [l El].
    destruct (O' 0 help ltac:(rewrite El; reflexivity)) as (x & X1 & (Y1 & Y2 & Y3 & Y4 & Y5)).
    unfold object. rewrite X1, Y1. cbn [bind]. rewrite Y5 by reflexivity.
    change (o_name help) with help_name.
    destruct (flagged 0 help_name (EParsed (f1 ++ f2) :: h)); exists g2; (split; [reflexivity|apply (full_R _ _ CK); exact F']).
  - pose proof (width_ok columns) as W. unfold parseConfigFile. destruct (columns_ok columns) eqn:CK; cbn [negb].
    2: { rewrite (init_abort g h CK HR). reflexivity. }
    destruct W as [w W]. destruct (init_ok g h w W HR) as (g1 & -> & F). cbn [bind].
    pose proof F as (F1 & F2 & F3 & F4 & F5). rewrite F3.
    destruct (on_file boost (declared false h) file) as [f|]; [|exists g1; split; [reflexivity|apply (full_R _ _ CK); exact F]].
    pose proof (process_full g1 h (store f []) f) as P.
    assert (Hm : forall n, var_at (store f []) n = found_for n f) by (intros n; rewrite var_at_store; reflexivity).
    specialize (P Hm F). destruct (existsb _ (options h)); [rewrite P; reflexivity|].
    destruct P as (g2 & -> & F'). cbn [bind].
    exists g2; (split; [reflexivity|apply (full_R _ _ CK); exact F']).
Qed.
Theorem run_ok : forall ops g h, R g h -> prun boost columns g ops = pspec_run boost columns h ops.
Proof.
  induction ops as [|o ops IH]; intros g h HR; cbn [prun pspec_run]; [reflexivity|].
  pose proof (step_ok o g h HR) as S. destruct (pspec boost columns h o) as [[h' out]| | |].
  - destruct S as (g' & -> & HR'). rewrite (IH g' h' HR'). reflexivity.
  - rewrite S. reflexivity.
  - rewrite S. reflexivity.
  - contradiction.
Qed.

(** After an option was destroyed *)
Fixpoint pstate (g : reg) (ops : list (pop V)) : res reg :=
  match ops with
  | [] => Ok g
  | o :: r => let! p := pstep boost columns g o in pstate (fst p) r
  end.
Lemma state_R : forall ops g h g', R g h -> pstate g ops = Ok g' -> exists h', R g' h'.
Proof.
  induction ops as [|o ops IH]; intros g h g' HR E; cbn [pstate] in E.
  - injection E as <-. eauto.
  - pose proof (step_ok o g h HR) as S. destruct (pspec boost columns h o) as [[h' out]| | |];
      [destruct S as (g1 & S & HR1); rewrite S in E; cbn in E; eauto|rewrite S in E; discriminate..|contradiction].
Qed.

(** An object that was destroyed and is still registered *)
Definition dangling (g : reg) (i : nat) : Prop :=
  (exists x, nth_error (r_objs g) i = Some x /\ m_alive x = false) /\
  ((exists f, In f (r_init g) /\ i_obj f = i) \/ In i (map snd (r_pairs g))).
Lemma dead_ub : forall (g : reg) i, (exists x, nth_error (r_objs g) i = Some x /\ m_alive x = false) -> object g i = UB.
Proof. intros g i (x & E & D). unfold object. rewrite E, D. reflexivity. Qed.
Lemma object_nth : forall (g : reg) i x, object g i = Ok x -> nth_error (r_objs g) i = Some x /\ m_alive x = true.
Proof.
  intros g i x. unfold object. destruct (nth_error (r_objs g) i) as [y|]; [|discriminate].
  destruct (m_alive y) eqn:A; [|discriminate]. intros E. injection E as <-. auto.
Qed.
Lemma put_dead : forall (g : reg) i j x y, object g j = Ok x ->
  (exists z, nth_error (r_objs g) i = Some z /\ m_alive z = false) ->
  exists z, nth_error (r_objs (put g j y)) i = Some z /\ m_alive z = false.
Proof.
  intros g i j x y O (z & E & D). apply object_nth in O as [O1 O2]. cbn [put r_objs].
  rewrite nth_update by (apply nth_error_Some; congruence).
  destruct (Nat.eqb_spec i j) as [->|]; [congruence|eauto].
Qed.
Lemma put_dangling : forall (g : reg) i j x y, object g j = Ok x -> dangling g i -> dangling (put g j y) i.
Proof. intros g i j x y O [D1 D2]. split; [exact (put_dead g i j x y O D1)|exact D2]. Qed.
Lemma run_inits_dead : forall i l (g g' : reg), (exists x, nth_error (r_objs g) i = Some x /\ m_alive x = false) ->
  run_inits columns g l = Ok g' ->
  (forall f, In f l -> i_obj f <> i) /\ r_objs g' = r_objs g /\
  (In i (map snd (r_pairs g)) -> In i (map snd (r_pairs g'))).
Proof.
  intros i. induction l as [|f l IH]; intros g g' D E; cbn [run_inits] in E.
  - injection E as <-. cbn. auto.
  - unfold doInit in E. destruct (object g (i_obj f)) as [x| | |] eqn:O; try discriminate E. cbn [bind] in E.
    destruct (getHelpWidth columns); try discriminate E. cbn [bind] in E.
    apply IH in E; [|exact D]. cbn [r_objs r_pairs] in E. destruct E as (E1 & E2 & E3). split; [|split].
    + intros f' [<-|I]; [|auto]. intros Q. rewrite Q, (dead_ub g i D) in O. discriminate.
    + exact E2.
    + intros I. apply E3. rewrite map_app. apply in_or_app. left. exact I.
Qed.
Lemma init_dead : forall g i g', dangling g i -> runProgramOptionInitFns columns g = Ok g' ->
  (exists x, nth_error (r_objs g') i = Some x /\ m_alive x = false) /\ In i (map snd (r_pairs g')).
Proof.
  intros g i g' [D P] E. unfold runProgramOptionInitFns in E.
  destruct (run_inits columns g (r_init g)) as [g1| | |] eqn:X; try discriminate E. cbn [bind] in E.
  injection E as <-. cbn [r_objs r_pairs]. destruct (run_inits_dead i _ g g1 D X) as (X1 & X2 & X3).
  rewrite X2. split; [exact D|]. destruct P as [(f & F1 & F2)|P]; [|auto].
  exfalso. exact (X1 f F1 F2).
Qed.
Lemma process_dead : forall i m l (g g' : reg), (exists x, nth_error (r_objs g) i = Some x /\ m_alive x = false) ->
  In i (map snd l) -> processOptions g l m <> Ok g'.
Proof.
  intros i m. induction l as [|[n j] l IH]; intros g g' D I E; cbn [processOptions] in E; [contradiction|].
  destruct (match find_comma n with Some pos => if negb (0 <? pos) then Abort else Ok (firstn pos n) | None => Ok n end)
    as [key| | |]; try discriminate E. cbn [bind] in E.
  destruct (save g j (var_at m key)) as [g1| | |] eqn:Sv; try discriminate E. cbn [bind] in E.
  unfold save in Sv. destruct (object g j) as [x| | |] eqn:O; try discriminate Sv. cbn [bind] in Sv.
  cbn [map snd] in I. destruct I as [->|I]; [rewrite (dead_ub g i D) in O; discriminate|].
  revert E. apply IH; [|exact I]. destruct (var_at m key); [destruct (m_flag x)|]; injection Sv as <-;
    try exact D; exact (put_dead g i j x _ O D).
Qed.
Lemma parse_dangling : forall g i args allow, dangling g i ->
  match parseCommandLine boost columns g args allow with
  | Ok (g', OThrew) => dangling g' i
  | Ok _ => False
  | _ => True
  end.
Proof.
  intros g i args allow D. unfold parseCommandLine.
  destruct (runProgramOptionInitFns columns g) as [g1| | |] eqn:X; cbn [bind]; try exact Logic.I.
  destruct (init_dead g i g1 D X) as [D1 D2].
  destruct (on_args boost (r_desc g1) args) as [[f1 r1]|]; [|split; [exact D1|right; exact D2]].
  destruct (on_args boost (r_hidden g1) r1) as [[f2 r2]|]; [|split; [exact D1|right; exact D2]].
  destruct (negb _); [exact Logic.I|].
  destruct (processOptions g1 (r_pairs g1) (store f2 (store f1 []))) as [g2| | |] eqn:P; cbn [bind]; try exact Logic.I.
  exfalso. exact (process_dead i _ _ g1 g2 D1 D2 P).
Qed.
Lemma config_dangling : forall g i file, dangling g i ->
  match parseConfigFile boost columns g file with
  | Ok (g', OThrew) => dangling g' i
  | Ok _ => False
  | _ => True
  end.
Proof.
  intros g i file D. unfold parseConfigFile.
  destruct (runProgramOptionInitFns columns g) as [g1| | |] eqn:X; cbn [bind]; try exact Logic.I.
  destruct (init_dead g i g1 D X) as [D1 D2].
  destruct (on_file boost (r_desc g1) file) as [f1|]; [|split; [exact D1|right; exact D2]].
  destruct (processOptions g1 (r_pairs g1) (store f1 [])) as [g2| | |] eqn:P; cbn [bind]; try exact Logic.I.
  exfalso. exact (process_dead i _ _ g1 g2 D1 D2 P).
Qed.
Lemma step_dangling : forall g i o g' out, dangling g i -> pstep boost columns g o = Ok (g', out) -> dangling g' i.
Proof.
  intros g i o g' out D E. destruct o as [n hd fl d|j v|j b|j|args allow|file]; cbn [pstep] in E.
  - unfold construct in E. injection E as <- <-. destruct D as [(x & X & D1) D2]. split; cbn [r_objs r_init r_pairs].
    + exists x. rewrite nth_error_app1; [auto|]. apply nth_error_Some. congruence.
    + destruct D2 as [(f & F1 & F2)|D2]; [left; exists f; split; [apply in_or_app; auto|exact F2]|right; exact D2].
  - unfold set_value in E. destruct (object g j) as [x| | |] eqn:O; try discriminate E. cbn [bind] in E.
    destruct (m_flag x); try discriminate E. cbn [bind] in E. injection E as <- <-. exact (put_dangling g i j x _ O D).
  - unfold set_flag in E. destruct (object g j) as [x| | |] eqn:O; try discriminate E. cbn [bind] in E.
    destruct (m_flag x); try discriminate E. cbn [bind] in E. injection E as <- <-. exact (put_dangling g i j x _ O D).
  - destruct (object g j) as [x| | |]; try discriminate E. cbn [bind] in E.
    destruct (get x); try discriminate E. cbn [bind] in E. injection E as <- <-. exact D.
  - pose proof (parse_dangling g i args allow D) as P. rewrite E in P. destruct out; try contradiction. exact P.
  - pose proof (config_dangling g i file D) as P. rewrite E in P. destruct out; try contradiction. exact P.
Qed.
Lemma state_dangling : forall ops g i g', dangling g i -> pstate g ops = Ok g' -> dangling g' i.
Proof.
  induction ops as [|o ops IH]; intros g i g' D E; cbn [pstate] in E.
  - injection E as <-. exact D.
  - destruct (pstep boost columns g o) as [[g1 out]| | |] eqn:X; try discriminate E. cbn [bind fst] in E.
    eapply IH; [|exact E]. eapply step_dangling; eassumption.
Qed.
Lemma destroy_dangling : forall g h i g', R g h -> destroy g i = Ok g' -> dangling g' i.
Proof.
  intros g h i g' (Ho & A & B & E & (E0 & E1 & E2 & E3) & _) D. unfold destroy in D.
  destruct (object g i) as [x| | |] eqn:O; try discriminate D. cbn [bind] in D. injection D as <-.
  apply object_nth in O as [O1 O2].
  assert (Hi : i < length (r_objs g)) by (apply nth_error_Some; congruence). split.
  - cbn [put r_objs]. rewrite nth_update, Nat.eqb_refl by exact Hi. eexists. split; reflexivity.
  - cbn [put r_init r_pairs]. rewrite E0, E3. destruct Ho as [L _]. rewrite L, E, app_length in Hi.
    destruct (Nat.lt_ge_cases i (length A)) as [Ha|Ha].
    + right. destruct (nth_error A i) as [o|] eqn:N; [|apply nth_error_None in N; lia].
      apply (nth_index _ A 0) in N. apply (in_map to_pair) in N. apply (in_map snd) in N. exact N.
    + left. destruct (nth_error B (i - length A)) as [o|] eqn:N; [|apply nth_error_None in N; lia].
      apply (nth_index _ B (length A)) in N. exists (to_init (length A + (i - length A), o)).
      split; [apply in_map; exact N|]. cbn. lia.
Qed.
End Proofs.
