(** Lemmas about getDeptoolInfo. *)
From Coq Require Import String Ascii ZArith Bool Lia List.
From Verif Require Import Common StringUtil_Spec StringUtil_Model StringUtil_Proofs DepTool_Model DepTool_Spec.
Import ListNotations.
Local Open Scope Z_scope.

Lemma find_char p c r start : (start <= length p)%nat -> ~ In c (skipn start p) ->
  string_find (p ++ c :: r) [c] (Z.of_nat start) = len p.
Proof.
  intros L N. unfold string_find. destruct (Z.ltb_spec (len (p ++ c :: r)) (Z.of_nat start)) as [H|H].
  - rewrite app_length in H. clear - H L. lia.
  - rewrite Nat2Z.id, skipn_app. replace (start - length p)%nat with O by (clear - L; lia). cbn [skipn].
    rewrite first_match_char by exact N. rewrite skipn_length. clear - L. lia.
Qed.
Lemma find_none p c start : ~ In c (skipn start p) -> string_find p [c] (Z.of_nat start) = npos.
Proof.
  intros N. unfold string_find. destruct (Z.ltb_spec (len p) (Z.of_nat start)) as [H|H]; [reflexivity|].
  rewrite Nat2Z.id, first_match_char_None by exact N. reflexivity.
Qed.
Lemma in_dec_Z (c : Z) l : In c l \/ ~ In c l.
Proof. destruct (in_dec Z.eq_dec c l); auto. Qed.
Lemma first_split (c : Z) l : In c l -> exists a b, l = a ++ c :: b /\ ~ In c a.
Proof.
  induction l as [|x l IH]; intros H; [destruct H|]. destruct (Z.eq_dec x c) as [->|N].
  - exists [], l. split; [reflexivity|intros []].
  - destruct H as [H|H]; [contradiction|]. destruct (IH H) as (a & b & -> & Na). exists (x :: a), b. split; [reflexivity|].
    intros [E|E]; [contradiction|now apply Na].
Qed.
Lemma first_split_unique (c : Z) a b a' b' : a ++ c :: b = a' ++ c :: b' -> ~ In c a -> ~ In c a' -> a = a' /\ b = b'.
Proof.
  revert a'. induction a as [|x a IH]; intros [|y a'] E N N'; cbn in E.
  - injection E as ->. auto.
  - injection E as E _. destruct N'. left. now symmetry.
  - injection E as E _. destruct N. now left.
  - injection E as -> E. destruct (IH a' E) as [-> ->]; auto; intros K; [apply N|apply N']; now right.
Qed.
Lemma dashes_answer b a : len b < 2 ^ 63 -> answer b a (dashes b a).
Proof.
  intros L. split.
  - intros o v -> N. unfold dashes. cbn [app]. cbv zeta. pose proof (find_char o 45 v 0 (Nat.le_0_l _) N) as F. change (Z.of_nat 0) with 0 in F. rewrite F.
    rewrite app_length in L. cbn [app length] in L.
    assert (Hn : (len o =? npos) = false) by (apply Z.eqb_neq; unfold npos; lia). rewrite Hn. cbn [negb invariant bind].
    unfold substr. destruct (Z.ltb_spec (len (o ++ 45 :: v)) 0) as [H|_]; [lia|].
    cbn [bind]. destruct (Z.ltb_spec (len (o ++ 45 :: v)) (len o + 1)) as [H|_]; [rewrite app_length in H; cbn [length] in H; lia|].
    cbn [bind]. replace (Z.to_nat (len o + 1)) with (length o + 1)%nat by lia.
    rewrite Nat2Z.id. cbn [Z.to_nat skipn].
    rewrite firstn_app, Nat.sub_diag, firstn_all. cbn [firstn]. rewrite app_nil_r.
    rewrite skipn_app, skipn_all2 by lia. replace (length o + 1 - length o)%nat with 1%nat by lia. cbn [skipn app].
    rewrite firstn_all2 by (rewrite app_length; cbn [length]; lia). reflexivity.
  - intros N. unfold dashes. pose proof (find_none b 45 0 N) as F. change (Z.of_nat 0) with 0 in F. rewrite F. reflexivity.
Qed.

(** ** Lines *)
Lemma fgets_loop_line l : forall n rest buf, (length l < n)%nat -> ~ In 10 l ->
  fgets_loop n (l ++ 10 :: rest) buf = (buf ++ l ++ [10], (rest, false)).
Proof.
  induction l as [|c l IH]; intros [|n] rest buf L N; cbn [length] in L; try lia; cbn [app fgets_loop].
  - reflexivity.
  - destruct (Z.eqb_spec c 10) as [E|_]; [destruct N; now left|].
    rewrite IH; [|lia|intros K; apply N; now right]. now rewrite <- app_assoc.
Qed.
Lemma fgets_line l rest : (length l < 199)%nat -> ~ In 10 l -> fgets 199 (l ++ 10 :: rest) = (Some (l ++ [10]), (rest, false)).
Proof. intros L N. unfold fgets. rewrite fgets_loop_line by assumption. reflexivity. Qed.
Lemma c_str_id l : ~ In 0 l -> c_str l = l.
Proof.
  induction l as [|c l IH]; intros N; [reflexivity|]. cbn [c_str]. destruct (Z.eqb_spec c 0) as [E|_]; [destruct N; now left|].
  rewrite IH; [reflexivity|]. intros K. apply N. now right.
Qed.
Definition line_step (fuel : nat) (l rest b a : str) : res (str * str) :=
  if prefixequal (l ++ [10]) export_os then let! v := extractEnv (l ++ [10]) in deptool_loop fuel rest false v a
  else if prefixequal (l ++ [10]) export_arch then let! v := extractEnv (l ++ [10]) in deptool_loop fuel rest false b v
  else deptool_loop fuel rest false b a.
Lemma loop_line fuel l rest b a : one_line l -> (length l < 199)%nat ->
  deptool_loop (S fuel) (l ++ 10 :: rest) false b a = line_step fuel l rest b a.
Proof.
  intros (N & Z) L. cbn [deptool_loop]. rewrite fgets_line by assumption.
  rewrite c_str_id by (intros K; apply in_app_or in K; destruct K as [K|[K|[]]]; [contradiction|discriminate]).
  rewrite last_last. assert (E : empty (l ++ [10]) = false) by now destruct l. rewrite E. reflexivity.
Qed.
Lemma prefixequal_iff s p : prefixequal s p = true <-> starts p s.
Proof.
  unfold prefixequal. rewrite andb_true_iff, str_eqb_eq, Z.leb_le. split.
  - intros (L & E). exists (skipn (length p) s). rewrite <- E at 1. now rewrite firstn_skipn.
  - intros (t & ->). rewrite app_length, firstn_app, Nat.sub_diag, firstn_all. cbn [firstn]. rewrite app_nil_r. split; [lia|reflexivity].
Qed.
Lemma starts_line p l : ~ In 10 p -> starts p (l ++ [10]) <-> starts p l.
Proof.
  intros N. split.
  - intros (t & E). destruct (exists_last (l := t)) as (t' & x & ->).
    + intros ->. rewrite app_nil_r in E. apply N. rewrite <- E. apply in_or_app. right. now left.
    + rewrite app_assoc in E. apply app_inj_tail in E. destruct E as [E _]. now exists t'.
  - intros (t & ->). exists (t ++ [10]). now rewrite app_assoc.
Qed.
Lemma prefix_dec p s : starts p s \/ ~ starts p s.
Proof. rewrite <- prefixequal_iff. destruct (prefixequal s p); auto. Qed.
Lemma not_both s : starts export_os s -> starts export_arch s -> False.
Proof. intros (t & ->) (t' & E). vm_compute in E. discriminate. Qed.

(** ** Settings *)
Lemma extract_none p t : ~ In 34 p -> ~ In 34 t -> len (p ++ 34 :: t) < 2 ^ 63 -> extractEnv (p ++ 34 :: t) = Abort.
Proof.
  intros P T L. unfold extractEnv. pose proof (find_char p 34 t 0 (Nat.le_0_l _) P) as F. change (Z.of_nat 0) with 0 in F. rewrite F. cbv zeta.
  rewrite app_length in L. cbn [length] in L.
  assert (Hn : (len p =? npos) = false) by (apply Z.eqb_neq; unfold npos; lia). rewrite Hn. cbn [negb invariant bind].
  pose proof (find_none (p ++ 34 :: t) 34 (length p + 1)) as G.
  rewrite skipn_app, skipn_all2 in G by lia. replace (length p + 1 - length p)%nat with 1%nat in G by lia. cbn [skipn app] in G.
  replace (Z.of_nat (length p + 1)) with (len p + 1) in G by lia. rewrite (G T). reflexivity.
Qed.
Lemma extract_two p v r : ~ In 34 p -> ~ In 34 v -> len (p ++ 34 :: v ++ 34 :: r) < 2 ^ 63 ->
  extractEnv (p ++ 34 :: v ++ 34 :: r) = if (length r =? 2)%nat then if empty v then Abort else Ok v else Abort.
Proof.
  intros P V L. unfold extractEnv. pose proof (find_char p 34 (v ++ 34 :: r) 0 (Nat.le_0_l _) P) as F. change (Z.of_nat 0) with 0 in F. rewrite F. cbv zeta.
  rewrite app_length in L. cbn [length] in L. rewrite app_length in L. cbn [length] in L.
  assert (Hn : (len p =? npos) = false) by (apply Z.eqb_neq; unfold npos; lia). rewrite Hn. cbn [negb invariant bind].
  pose proof (find_char (p ++ 34 :: v) 34 r (length p + 1)) as G.
  rewrite app_length, skipn_app, skipn_all2 in G by lia. replace (length p + 1 - length p)%nat with 1%nat in G by lia. cbn [skipn app length] in G.
  rewrite <- app_assoc in G. cbn [app] in G. replace (Z.of_nat (length p + 1)) with (len p + 1) in G by lia.
  rewrite G by (exact V || lia). clear G F.
  assert (Hn2 : (Z.of_nat (length p + S (length v)) =? npos) = false) by (apply Z.eqb_neq; unfold npos; lia). rewrite Hn2. cbn [negb invariant bind].
  assert (E : (len (p ++ 34 :: v ++ 34 :: r) =? Z.of_nat (length p + S (length v)) + 3) = (length r =? 2)%nat).
  { rewrite app_length. cbn [length]. rewrite app_length. cbn [length]. destruct (Nat.eqb_spec (length r) 2); [apply Z.eqb_eq|apply Z.eqb_neq]; lia. }
  rewrite E. destruct (length r =? 2)%nat; [|reflexivity]. cbn [invariant bind].
  unfold substr. destruct (Z.ltb_spec (len (p ++ 34 :: v ++ 34 :: r)) (len p + 1)) as [H|_]; [rewrite app_length in H; cbn [length] in H; lia|].
  cbn [bind]. replace (Z.to_nat (len p + 1)) with (length p + 1)%nat by lia.
  replace (Z.to_nat (Z.of_nat (length p + S (length v)) - (len p + 1))) with (length v) by lia.
  rewrite skipn_app, skipn_all2 by lia. replace (length p + 1 - length p)%nat with 1%nat by lia. cbn [skipn app].
  rewrite firstn_app, Nat.sub_diag, firstn_all. cbn [firstn]. rewrite app_nil_r. now destruct v.
Qed.
Lemma no_newline_export : ~ In 10 export_os /\ ~ In 10 export_arch.
Proof. split; intros H; vm_compute in H; repeat (destruct H as [H|H]; [discriminate|]); destruct H. Qed.
Definition pre_os : str := lit "export BUILD_OS=".
Definition pre_arch : str := lit "export UNAME_M=".
Lemma export_split : export_os = pre_os ++ [34] /\ export_arch = pre_arch ++ [34].
Proof. split; reflexivity. Qed.
Lemma no_quote : ~ In 34 pre_os /\ ~ In 34 pre_arch.
Proof. split; intros H; vm_compute in H; repeat (destruct H as [H|H]; [discriminate|]); destruct H. Qed.
Lemma small_line (l : str) : (length l < 199)%nat -> len (l ++ [10]) < 2 ^ 63.
Proof. intros L. rewrite app_length. cbn [length]. assert (199 < 2 ^ 62) by reflexivity. lia. Qed.
Lemma proper_step fuel l rest b a : proper l -> (length (render l) < 199)%nat ->
  line_step fuel (render l) rest b a = deptool_loop fuel rest false (last_os [l] b) (last_arch [l] a).
Proof.
  destruct no_newline_export as [No Na]. destruct export_split as [Eo Ea]. destruct no_quote as [Qo Qa].
  intros (P & O) L. pose proof (small_line _ L) as SL. unfold line_step.
  destruct l as [v c|v c|s]; cbn [render last_os last_arch fold_left] in *.
  - assert (X : prefixequal ((export_os ++ v ++ [34; c]) ++ [10]) export_os = true).
    { apply prefixequal_iff. rewrite <- app_assoc. eexists. reflexivity. }
    rewrite X. assert (Y : (export_os ++ v ++ [34; c]) ++ [10] = pre_os ++ 34 :: v ++ 34 :: [c; 10]) by (rewrite Eo, <- !app_assoc; reflexivity).
    rewrite Y in *. rewrite extract_two by (exact Qo || exact SL || apply P). destruct P as (P & _). destruct v; [contradiction|reflexivity].
  - assert (X : prefixequal ((export_arch ++ v ++ [34; c]) ++ [10]) export_arch = true).
    { apply prefixequal_iff. rewrite <- app_assoc. eexists. reflexivity. }
    assert (X2 : prefixequal ((export_arch ++ v ++ [34; c]) ++ [10]) export_os = false).
    { apply not_true_is_false. intros H. apply prefixequal_iff in H. apply prefixequal_iff in X. now apply (not_both _ H X). }
    rewrite X, X2. assert (Y : (export_arch ++ v ++ [34; c]) ++ [10] = pre_arch ++ 34 :: v ++ 34 :: [c; 10]) by (rewrite Ea, <- !app_assoc; reflexivity).
    rewrite Y in *. rewrite extract_two by (exact Qa || exact SL || apply P). destruct P as (P & _). destruct v; [contradiction|reflexivity].
  - destruct P as (P1 & P2).
    assert (X : prefixequal (s ++ [10]) export_os = false) by (apply not_true_is_false; intros H; apply P1, (starts_line _ _ No), prefixequal_iff, H).
    assert (X2 : prefixequal (s ++ [10]) export_arch = false) by (apply not_true_is_false; intros H; apply P2, (starts_line _ _ Na), prefixequal_iff, H).
    rewrite X, X2. reflexivity.
Qed.
Lemma lines_cons l ls : lines (l :: ls) = l ++ 10 :: lines ls.
Proof. unfold lines. cbn [map concat]. now rewrite <- app_assoc. Qed.
Lemma loop_lines ls : forall fuel rest b a, Forall proper ls -> Forall (fun l => (length (render l) < 199)%nat) ls ->
  deptool_loop (length ls + fuel) (lines (map render ls) ++ rest) false b a = deptool_loop fuel rest false (last_os ls b) (last_arch ls a).
Proof.
  induction ls as [|l ls IH]; intros fuel rest b a P L; [reflexivity|].
  inversion P as [|x y P1 P2]; subst. inversion L as [|x y L1 L2]; subst.
  cbn [map]. rewrite lines_cons, <- app_assoc. cbn [app length Nat.add].
  rewrite loop_line by (exact L1 || apply P1). rewrite proper_step by assumption. rewrite IH by assumption.
  destruct l; reflexivity.
Qed.
Lemma lines_length ls : (length ls <= length (lines ls))%nat.
Proof. induction ls as [|l ls IH]; [apply le_n|]. rewrite lines_cons, app_length. cbn [length]. lia. Qed.
Lemma loop_end fuel b a : deptool_loop (S fuel) [] false b a = Ok (b, a).
Proof. reflexivity. Qed.
Lemma run_lines ls rest b a : Forall proper ls -> Forall (fun l => (length (render l) < 199)%nat) ls ->
  exists fuel, deptool_loop (S (length (lines (map render ls) ++ rest))) (lines (map render ls) ++ rest) false b a =
               deptool_loop (S (length rest + fuel)) rest false (last_os ls b) (last_arch ls a).
Proof.
  intros P L. pose proof (lines_length (map render ls)) as H. rewrite map_length in H.
  exists (length (lines (map render ls)) - length ls)%nat.
  replace (S (length (lines (map render ls) ++ rest))) with (length ls + (S (length rest + (length (lines (map render ls)) - length ls))))%nat
    by (rewrite app_length; lia).
  now apply loop_lines.
Qed.
Lemma broken_step fuel l rest b a : broken l -> (length l < 199)%nat -> line_step fuel l rest b a = Abort.
Proof.
  destruct no_newline_export as [No Na]. destruct export_split as [Eo Ea]. destruct no_quote as [Qo Qa].
  intros (O & S & B) L. pose proof (small_line _ L) as SL.
  assert (X : forall p t, ~ In 34 p -> l ++ [10] = p ++ 34 :: t -> (forall v c, v <> [] -> ~ In 34 v -> l <> (p ++ [34]) ++ v ++ [34; c]) -> extractEnv (l ++ [10]) = Abort).
  { intros p t Np E Bp. rewrite E in *. destruct (in_dec_Z 34 t) as [I|I]; [|now apply extract_none].
    destruct (first_split _ _ I) as (v & r & -> & Nv). rewrite extract_two by assumption.
    destruct r as [|c [|d [|x r]]]; try reflexivity. cbn [length Nat.eqb]. destruct v as [|x v]; [reflexivity|]. exfalso.
    apply (Bp (x :: v) c); [discriminate|exact Nv|].
    assert (E2 : l ++ [10] = ((p ++ [34]) ++ (x :: v) ++ [34; c]) ++ [d]) by (rewrite E, <- !app_assoc; reflexivity).
    apply app_inj_tail in E2. apply E2. }
  unfold line_step. destruct (prefixequal (l ++ [10]) export_os) eqn:Po.
  - apply prefixequal_iff in Po. destruct Po as (t & E). rewrite Eo in E. rewrite <- app_assoc in E.
    rewrite (X pre_os t Qo E); [reflexivity|]. intros v c V N. rewrite <- Eo. now apply B.
  - destruct (prefixequal (l ++ [10]) export_arch) eqn:Pa.
    + apply prefixequal_iff in Pa. destruct Pa as (t & E). rewrite Ea in E. rewrite <- app_assoc in E.
      rewrite (X pre_arch t Qa E); [reflexivity|]. intros v c V N. rewrite <- Ea. now apply B.
    + exfalso. assert (C : prefixequal (l ++ [10]) export_os = true \/ prefixequal (l ++ [10]) export_arch = true).
      { destruct S as [S|S]; [left|right]; apply prefixequal_iff, starts_line; assumption. }
      rewrite Po, Pa in C. destruct C; discriminate.
Qed.
(** ** Lines that are too long, or not ended, or hold a NUL *)
Lemma fgets_loop_long l : forall n rest buf, (n <= length l)%nat -> ~ In 10 l ->
  exists rest', fgets_loop n (l ++ rest) buf = (buf ++ firstn n l, (rest', false)).
Proof.
  induction l as [|c l IH]; intros [|n] rest buf L N; cbn [length] in L; try lia; cbn [app fgets_loop firstn].
  - exists rest. now rewrite app_nil_r.
  - exists (c :: l ++ rest). now rewrite app_nil_r.
  - destruct (Z.eqb_spec c 10) as [E|_]; [destruct N; now left|].
    destruct (IH n rest (buf ++ [c])) as (r & E); [lia|intros K; apply N; now right|]. exists r. rewrite E. now rewrite <- app_assoc.
Qed.
Lemma fgets_loop_open l : forall n buf, (length l < n)%nat -> ~ In 10 l -> fgets_loop n l buf = (buf ++ l, ([], true)).
Proof.
  induction l as [|c l IH]; intros [|n] buf L N; cbn [length] in L; try lia; cbn [fgets_loop].
  - now rewrite app_nil_r.
  - destruct (Z.eqb_spec c 10) as [E|_]; [destruct N; now left|].
    rewrite IH; [|lia|intros K; apply N; now right]. now rewrite <- app_assoc.
Qed.
Lemma c_str_in l x : In x (c_str l) -> In x l.
Proof. induction l as [|c l IH]; cbn [c_str]; [auto|]. destruct (c =? 0); [intros []|]. intros [E|E]; [now left|right; auto]. Qed.
Lemma last_in (l : str) d : l <> [] -> In (last l d) l.
Proof.
  intros N. destruct (exists_last N) as (t & x & ->). rewrite last_last. apply in_or_app. right. now left.
Qed.
Lemma bad_buffer buf : ~ In 10 (c_str buf) -> negb (empty (c_str buf)) && (last (c_str buf) 0 =? 10) = false.
Proof.
  intros N. destruct (empty (c_str buf)) eqn:E; [reflexivity|]. cbn [negb andb]. apply Z.eqb_neq. intros K. apply N. rewrite <- K. apply last_in.
  intros Z. rewrite Z in E. discriminate.
Qed.
Lemma firstn_in (l : str) n x : In x (firstn n l) -> In x l.
Proof. intros H. rewrite <- (firstn_skipn n l). apply in_or_app. now left. Qed.
Lemma loop_long fuel l rest b a : (199 <= length l)%nat -> ~ In 10 l -> deptool_loop (S fuel) (l ++ rest) false b a = Abort.
Proof.
  intros L N. cbn [deptool_loop]. unfold fgets. destruct (fgets_loop_long l 199 rest [] L N) as (r & E). rewrite E. cbn [app snd andb].
  rewrite bad_buffer; [reflexivity|]. intros K. apply c_str_in, firstn_in in K. contradiction.
Qed.
Lemma loop_open fuel l b a : l <> [] -> ~ In 10 l -> deptool_loop (S fuel) l false b a = Abort.
Proof.
  intros Z N. destruct (le_lt_dec 199 (length l)) as [L|L].
  - rewrite <- (app_nil_r l). now apply loop_long.
  - cbn [deptool_loop]. unfold fgets. rewrite fgets_loop_open by assumption. cbn [app snd andb].
    assert (E : empty l = false) by now destruct l. rewrite E. rewrite bad_buffer; [reflexivity|]. intros K. now apply N, c_str_in.
Qed.
Lemma c_str_cut l r : In 0 l -> ~ In 10 l -> ~ In 10 (c_str (l ++ r)).
Proof.
  induction l as [|c l IH]; intros I N; [destruct I|]. cbn [app c_str]. destruct (Z.eqb_spec c 0) as [->|D]; [intros []|].
  destruct I as [I|I]; [contradiction|]. intros [K|K]; [apply N; now left|]. revert K. apply IH; [exact I|]. intros K. apply N. now right.
Qed.
Lemma loop_nul fuel l rest b a : In 0 l -> ~ In 10 l -> deptool_loop (S fuel) (l ++ 10 :: rest) false b a = Abort.
Proof.
  intros I N. destruct (le_lt_dec 199 (length l)) as [L|L]; [now apply loop_long|].
  cbn [deptool_loop]. rewrite fgets_line by assumption. rewrite bad_buffer; [reflexivity|]. now apply c_str_cut.
Qed.
(** ** Every output *)
Definition fine {A} (r : res A) : Prop := r = Abort \/ exists x, r = Ok x.
Lemma fine_bind {A B} (r : res A) (g : A -> res B) : fine r -> (forall x, fine (g x)) -> fine (let! x := r in g x).
Proof. intros [->|(x & ->)] G; [now left|apply G]. Qed.
Lemma fine_ok {A} (x : A) : fine (Ok x). Proof. right. now exists x. Qed.
Lemma fine_invariant b : fine (invariant b). Proof. destruct b; [apply fine_ok|now left]. Qed.
Lemma fine_substr s p n : fine (substr s p n).
Proof. unfold substr. destruct (_ <? _); [now left|apply fine_ok]. Qed.
Lemma fine_extract s : fine (extractEnv s).
Proof.
  unfold extractEnv. cbv zeta. repeat (apply fine_bind; [apply fine_invariant|intros _]).
  apply fine_bind; [apply fine_substr|]. intros x. apply fine_bind; [apply fine_invariant|]. intros _. apply fine_ok.
Qed.
Lemma fine_dashes b a : fine (dashes b a).
Proof.
  unfold dashes. cbv zeta. apply fine_bind; [apply fine_invariant|intros _]. apply fine_bind; [apply fine_substr|intros o].
  apply fine_bind; [apply fine_substr|intros v]. apply fine_ok.
Qed.
Lemma fgets_loop_rest n : forall f buf buf' f' e, fgets_loop n f buf = (buf', (f', e)) -> (length f' <= length f)%nat.
Proof.
  induction n as [|n IH]; intros [|c f] buf buf' f' e; cbn [fgets_loop]; intros H; try (injection H as <- <- <-; cbn [length]; lia).
  destruct (c =? 10); [injection H as <- <- <-; cbn [length]; lia|]. apply IH in H. cbn [length]. lia.
Qed.
Lemma fgets_some n f buf f' e : fgets (S n) f = (Some buf, (f', e)) -> (length f' < length f)%nat.
Proof.
  unfold fgets. destruct f as [|c f]; [discriminate|]. cbn [fgets_loop]. destruct (c =? 10).
  - cbn. intros H. injection H as _ <- _. lia.
  - destruct (fgets_loop n f ([] ++ [c])) as [b' [f2 e2]] eqn:E. apply fgets_loop_rest in E. cbn [snd].
    destruct (e2 && empty b'); [discriminate|]. intros H. injection H as _ <- _. cbn [length]. lia.
Qed.
Lemma fine_loop : forall fuel f eof b a, (length f < fuel)%nat -> fine (deptool_loop fuel f eof b a).
Proof.
  induction fuel as [|fuel IH]; intros f eof b a L; [lia|]. cbn [deptool_loop]. destruct eof; [apply fine_ok|].
  destruct (fgets 199 f) as [[buf|] [f' e]] eqn:E; [|apply fine_ok]. apply fgets_some in E.
  apply fine_bind; [apply fine_invariant|intros _].
  assert (H : forall b a, fine (deptool_loop fuel f' e b a)) by (intros; apply IH; lia).
  destruct (prefixequal _ _); [apply fine_bind; [apply fine_extract|intros x; apply H]|].
  destruct (prefixequal _ _); [apply fine_bind; [apply fine_extract|intros x; apply H]|apply H].
Qed.
Lemma empty_iff (s : str) : empty s = true <-> s = [].
Proof. destruct s; split; intros H; try reflexivity; discriminate. Qed.
Lemma empty_false (s : str) : empty s = false <-> s <> [].
Proof. destruct s; split; intros H; try reflexivity; try discriminate; now destruct H. Qed.
Lemma answer_abort r b a : answer b a r -> b = [] -> r = Abort.
Proof. intros (_ & H) ->. apply H. intros []. Qed.
Lemma last_os_len ls d : Forall (fun l => (length (render l) < 199)%nat) ls -> len d < 2 ^ 63 -> len (last_os ls d) < 2 ^ 63.
Proof.
  unfold last_os. revert d. induction ls as [|l ls IH]; intros d F L; [exact L|]. inversion F as [|x y F1 F2]; subst. cbn [fold_left]. apply IH; [exact F2|].
  destruct l as [v c|v c|s]; try exact L. cbn [render] in F1. rewrite !app_length in F1. assert (199 < 2 ^ 62) by reflexivity. clear - F1 H. lia.
Qed.
