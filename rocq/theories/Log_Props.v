(** C50: levels, ids and messages of LintelLog. *)
From Coq Require Import List Arith ZArith Lia Bool ZifyBool ZifyNat.
From Verif Require Import Common CommonFacts StringUtil_Spec StringUtil_Model StringUtil_Proofs StringUtil_Props Log_Spec Log_Model Log_Proofs.
Import ListNotations.
Local Open Scope Z_scope.

(** Every sequence of calls answers as specified: levels by the rule of [level], ids by the
    order of first use, and every message to every appender. *)
Theorem C50_log : forall ops, conforms (run_ops log_step log_new ops) (run_ops spec_step spec_new ops).
Proof.
  assert (G : forall ops t s, refines t s -> conforms (run_ops log_step s ops) (run_ops spec_step t ops)).
  { induction ops as [|o ops IH]; intros t s R; cbn [run_ops]; [constructor|]. pose proof (step_refines t s o R) as H. destruct (spec_step t o) as [[t' a]| | |]; [|rewrite H; constructor|constructor|contradiction].
    destruct H as (s' & -> & R' & _). constructor. now apply IH. }
  intros ops. apply G, new_refines.
Qed.
Print Assumptions C50_log.

Lemma find_app {A} (f : A -> bool) l l' : find f (l ++ l') = match find f l with Some x => Some x | None => find f l' end.
Proof. induction l as [|x l IH]; cbn [app find]; [reflexivity|]. now destruct (f x). Qed.
(** The level is that of the latest matching setting whenever the category was first used
    before some matching setting, or the matching settings before its first use agree. *)
Theorem C50_latest_partial : forall h c before since, first_use c h = (before, since) ->
  (existsb (sets c) since = true \/ forall p l p' l', In (Setting p l) before -> In (Setting p' l') before -> matches p c = true -> matches p' c = true -> l = l') ->
  level h c = latest h c.
Proof.
  intros h c before since E H. unfold level, latest. rewrite E. assert (Eh : h = before ++ since). { revert before since E H. induction h as [|e h IH]; intros before since E H; cbn [first_use] in E; [injection E as <- <-; reflexivity|]. destruct (uses c e); [injection E as <- <-; reflexivity|]. destruct (first_use c h) as [b a]. injection E as <- <-. cbn [app]. f_equal. apply (IH b a eq_refl).
    destruct H as [H|H]; [now left|right]. intros p l p' l' I I'. apply H; now right. }
  rewrite Eh, rev_app_distr. rewrite find_app. destruct (find (sets c) (rev since)) as [e|] eqn:F.
  - apply find_some in F. destruct F as (_ & S). destruct e; [reflexivity|discriminate].
  - cbn [level_set]. destruct H as [H|H].
    + apply existsb_exists in H. destruct H as (e & I & S). rewrite (find_none _ _ F e) in S; [discriminate|]. now apply -> in_rev.
    + destruct (find (sets c) before) as [e|] eqn:Fb; destruct (find (sets c) (rev before)) as [e'|] eqn:Fr.
      * apply find_some in Fb, Fr. destruct Fb as (I & S), Fr as (I' & S'). apply in_rev in I'. destruct e as [p l|]; [|discriminate]. destruct e' as [p' l'|]; [|discriminate]. cbn [level_set]. apply (H p l p' l' I I' S S').
      * apply find_some in Fb. destruct Fb as (I & S). rewrite (find_none _ _ Fr e) in S; [discriminate|]. now apply -> in_rev.
      * apply find_some in Fr. destruct Fr as (I & S). rewrite (find_none _ _ Fb e') in S; [discriminate|]. now apply in_rev.
      * reflexivity.
Qed.
Print Assumptions C50_latest_partial.
Definition abc : str := [97; 98; 99].
Example C50_latest_partial_met :
  let h := [Setting [97; 42] 1; Use abc; Setting [97; 98; 42] 2] in
  first_use abc h = ([Setting [97; 42] 1], [Use abc; Setting [97; 98; 42] 2]) /\ existsb (sets abc) [Use abc; Setting [97; 98; 42] 2] = true /\ level h abc = 2.
Proof. repeat split. Qed.

(** In general it is not: after "a*" = 1 and "ab*" = 2, a category "abc" has level 1 when it
    is used for the first time now, and 2 when it was used before. *)
Theorem C50_order_refuted :
  latest [Setting [97; 42] 1; Setting [97; 98; 42] 2; Use abc] abc = 2 /\
  run_ops log_step log_new [OSet [97; 42] 1; OSet [97; 98; 42] 2; OCategory abc; OLevel 0] = [Ok (Done, []); Ok (Done, []); Ok (Id 0, []); Ok (Level 1, [])] /\
  run_ops log_step log_new [OCategory abc; OSet [97; 42] 1; OSet [97; 98; 42] 2; OLevel 0] = [Ok (Id 0, []); Ok (Done, []); Ok (Done, []); Ok (Level 2, [])].
Proof. split; [reflexivity|]. split; vm_compute; reflexivity. Qed.
Print Assumptions C50_order_refuted.

(** No caller reserves more categories than memory can hold. *)
Definition modest (o : op) : Prop := match o with OReserve n => n <= 800000000 | _ => True end.
Lemma exec_refines : forall ops t s s', refines t s -> Forall modest ops -> exec_ops log_step s ops = Ok s' ->
  exists t', refines t' s' /\ (exists k, known (hist t') = known (hist t) ++ k) /\ (Forall (fun o => match o with OReserve _ => False | _ => True end) ops -> moves s' = moves s).
Proof.
  assert (K : forall t e c t' o, used e = Some c -> spec_use t e c = Ok (t', o) -> exists k, known (hist t') = known (hist t) ++ k).
  { intros t e c t' o U E. unfold spec_use in E. destruct (_ || _); [|discriminate]. injection E as <- _. cbn [hist]. rewrite (known_after_use _ _ _ U). destruct (existsb _ _); [exists []; now rewrite app_nil_r|eauto]. }
  induction ops as [|o ops IH]; intros t s s' R M E; cbn [exec_ops] in E.
  - injection E as <-. exists t. split; [exact R|]. split; [exists []; now rewrite app_nil_r|reflexivity].
  - inversion M as [|? ? Mo Mr]; subst. pose proof (step_refines t s o R) as H. destruct (spec_step t o) as [[t1 a]| | |] eqn:S.
    + destruct H as (s1 & E1 & R1 & V). rewrite E1 in E. cbn [bind] in E. destruct (IH t1 s1 s' R1 Mr E) as (t2 & R2 & (k2 & K2) & V2). exists t2. split; [exact R2|]. split.
      * assert (K1 : exists k, known (hist t1) = known (hist t) ++ k).
        { destruct o as [p l|c l|c|cs|id|id l|n|x|ty m]; cbn [spec_step] in S.
          - destruct (wildcard p) as [q|] eqn:W.
            + destruct (_ <? _)%nat; [|discriminate]. injection S as <- _. cbn [hist]. rewrite known_snoc. unfold add_known. cbn [used]. rewrite W. exists []. now rewrite app_nil_r.
            + destruct (spec_use t (Setting p l) p) as [[t3 o3]| | |] eqn:S3; try discriminate. cbn [bind] in S. injection S as <- _. eapply K; [|exact S3]. cbn [used]. now rewrite W.
          - destruct (spec_use t (Use c) c) as [[t3 o3]| | |] eqn:S3; try discriminate. cbn [bind] in S. injection S as <- _. eapply K; [|exact S3]. reflexivity.
          - destruct (spec_use t (Use c) c) as [[t3 o3]| | |] eqn:S3; try discriminate. cbn [bind] in S. injection S as <- _. eapply K; [|exact S3]. reflexivity.
          - destruct (spec_uses t cs) as [[t3 o3]| | |] eqn:S3; try discriminate. cbn [bind] in S. injection S as <- _. clear - K S3. revert t t3 o3 S3. induction cs as [|c cs IH]; intros t t3 o3 S; cbn [spec_uses] in S; [injection S as <- _; exists []; now rewrite app_nil_r|].
            destruct (spec_use t (Use c) c) as [[t4 o4]| | |] eqn:S4; try discriminate. cbn [bind] in S. destruct (spec_uses t4 cs) as [[t5 o5]| | |] eqn:S5; try discriminate. cbn [bind] in S. injection S as <- _. destruct (K t (Use c) c t4 o4 eq_refl S4) as (k1 & E1). destruct (IH _ _ _ S5) as (k2 & E2). exists (k1 ++ k2). rewrite E2, E1. now rewrite app_assoc.
          - destruct (spec_level t id); try discriminate. injection S as <- _. exists []. now rewrite app_nil_r.
          - destruct (spec_level t id); try discriminate. injection S as <- _. exists []. now rewrite app_nil_r.
          - destruct (800000000 <? n); [discriminate|]. destruct (_ <=? _); [|discriminate]. injection S as <- _. exists []. cbn [hist]. now rewrite app_nil_r.
          - injection S as <- _. exists []. cbn [hist]. now rewrite app_nil_r.
          - injection S as <- _. exists []. cbn [hist]. now rewrite app_nil_r. }
        destruct K1 as (k1 & K1). exists (k1 ++ k2). rewrite K2, K1. now rewrite app_assoc.
      * intros F. inversion F as [|? ? Fo Fr]; subst. rewrite (V2 Fr). destruct o; try exact V. contradiction.
    + rewrite H in E. discriminate.
    + exfalso. destruct o as [p l|c l|c|cs|id|id l|n|x|ty m]; cbn [spec_step log_step] in *; try discriminate.
      * destruct (wildcard p); [destruct (_ <? _)%nat; discriminate|]. unfold spec_use in S. destruct (_ || _); discriminate.
      * unfold spec_use in S. destruct (_ || _); discriminate.
      * unfold spec_use in S. destruct (_ || _); discriminate.
      * destruct (spec_uses t cs) as [[]| | |] eqn:U; try discriminate. clear - U. revert t U. induction cs as [|c cs IH]; intros t U; cbn [spec_uses] in U; [discriminate|]. unfold spec_use in U. destruct (_ || _); [|discriminate]. cbn [bind] in U. match type of U with context [spec_uses ?x cs] => destruct (spec_uses x cs) as [[]| | |] eqn:V; try discriminate; exact (IH _ V) end.
      * rewrite (level_refines t s id R) in E. destruct (spec_level t id); discriminate.
      * rewrite (level_refines t s id R) in E. destruct (spec_level t id); discriminate.
      * cbn [modest] in Mo. replace (800000000 <? n) with false in S by lia. destruct (_ <=? _); discriminate.
    + contradiction.
Qed.

(** The id of a category never changes, and no other category gets it. *)
Theorem C50_ids : forall ops ops' s s1 s2 s3 c c' id id' o o',
  exec_ops log_step log_new ops = Ok s -> log_step s (OCategory c) = Ok (s1, (Id id, o)) ->
  exec_ops log_step s1 ops' = Ok s2 -> log_step s2 (OCategory c') = Ok (s3, (Id id', o')) ->
  Forall modest (ops ++ ops') -> (id' = id <-> c' = c).
Proof.
  intros ops ops' s s1 s2 s3 c c' id id' o o' E1 S1 E2 S2 M. apply Forall_app in M. destruct M as (M1 & M2). destruct (exec_refines ops spec_new log_new s new_refines M1 E1) as (t & R & _).
  pose proof (category_refines t s c R) as H. cbn [log_step] in S1. unfold spec_use in H. destruct (_ || _); cbn [use_result] in H; [|rewrite H in S1; discriminate]. destruct H as ([[i st] w] & E & Ha & R1 & _ & I1). rewrite E in S1. cbn [bind fst snd] in *. injection S1 as -> -> _. injection Ha as -> _.
  cbn [hist] in *. set (t1 := mk_spec (hist t ++ [Use c]) (room t) (appenders t) (warned t || ((4 * room t <=? 5 * Z.of_nat (position c (known (hist t ++ [Use c])))) && negb (warned t)))) in *.
  destruct (exec_refines ops' t1 s1 s2 R1 M2 E2) as (t2 & R2 & (k & K) & _). change (hist t1) with (hist t ++ [Use c]) in K. clearbody t1.
  pose proof (category_refines t2 s2 c' R2) as H. cbn [log_step] in S2. unfold spec_use in H. match type of H with use_result (if ?b then _ else _) _ _ => destruct b end; cbn [use_result] in H; [|rewrite H in S2; discriminate]. destruct H as ([[i' st'] w'] & E' & Ha & R3 & _ & I3). rewrite E' in S2. cbn [bind fst snd] in *. injection S2 as -> -> _. injection Ha as -> _. cbn [hist] in *.
  assert (K3 : exists k', known (hist t2 ++ [Use c']) = known (hist t ++ [Use c]) ++ k'). { rewrite (known_after_use _ (Use c') c' eq_refl), K. destruct (existsb _ _); [eauto|]. exists (k ++ [c']). now rewrite app_assoc. }
  destruct K3 as (k' & K3). rewrite K3 in *. split.
  - intros P. pose proof (position_nth _ _ I3) as N3. pose proof (position_nth _ _ I1) as N1. rewrite P in N3. rewrite nth_error_app1 in N3 by (now apply position_lt). congruence.
  - intros ->. now apply position_app.
Qed.
Print Assumptions C50_ids.

(** The levels never move in memory, except by reserveCategories: readers of a Category's
    level need no lock. *)
Theorem C50_storage_stays : forall ops ops' s s', Forall modest ops -> Forall (fun o => match o with OReserve _ => False | _ => True end) ops' ->
  exec_ops log_step log_new ops = Ok s -> exec_ops log_step s ops' = Ok s' -> moves s' = moves s.
Proof.
  intros ops ops' s s' M N E E'. destruct (exec_refines ops spec_new log_new s new_refines M E) as (t & R & _). destruct (exec_refines ops' t s s' R) as (_ & _ & _ & V); [|exact E'|exact (V N)].
  eapply Forall_impl; [|exact N]. intros o. destruct o; cbn [modest]; tauto.
Qed.
Print Assumptions C50_storage_stays.

(** A debug string sets the level of each name in it, in order. *)
Fixpoint set_all (s : log) (settings : list (str * Z)) : res (log * list output) :=
  match settings with
  | [] => Ok (s, [])
  | (n, l) :: r => let! (s, o) := setDebugLevel s n l in let! (s, o') := set_all s r in Ok (s, o ++ o')
  end.
Lemma digits_value : forall ds acc, Forall (fun d => 0 <= d <= 9) ds -> 0 <= acc -> fold_left (fun a d => 10 * a + d) ds acc < 2 ^ 32 ->
  acc <= fold_left (fun a d => 10 * a + d) ds acc /\ cast_digits (map (Z.add 48) ds) acc = Ok (fold_left (fun a d => 10 * a + d) ds acc).
Proof.
  induction ds as [|d ds IH]; intros acc F A B; cbn [fold_left map cast_digits] in *; [split; [lia|reflexivity]|]. inversion F as [|? ? Fd Fr]; subst. destruct (IH (10 * acc + d) Fr ltac:(lia) B) as (L & E). split; [lia|].
  replace ((48 <=? 48 + d) && (48 + d <=? 57)) with true by lia. replace (10 * acc + (48 + d - 48)) with (10 * acc + d) by lia. replace (10 * acc + d <? 2 ^ 32) with true by lia. exact E.
Qed.
Lemma cast_number ds : ds <> [] -> Forall (fun d => 0 <= d <= 9) ds -> number ds < 2 ^ 32 -> lexical_cast_u32 (map (Z.add 48) ds) = Ok (number ds).
Proof.
  intros N F B. destruct ds as [|d ds]; [congruence|]. destruct (digits_value (d :: ds) 0 F ltac:(lia) B) as (_ & E). inversion F as [|? ? Fd Fr]; subst.
  unfold lexical_cast_u32. cbn [map] in *. assert (Q : 48 + d <> 43 /\ 48 + d <> 45) by lia. destruct (48 + d) as [|x|x] eqn:X; try lia. repeat (destruct x as [x|x|]; try exact E); exfalso; lia.
Qed.
Lemma number_nonneg ds : Forall (fun d => 0 <= d <= 9) ds -> forall acc, 0 <= acc -> 0 <= fold_left (fun a d => 10 * a + d) ds acc.
Proof. induction ds as [|d ds IH]; intros F acc A; cbn [fold_left]; [exact A|]. inversion F; subst. apply IH; [assumption|lia]. Qed.
Lemma item_len c items i : In i items -> len (item_text i) <= len (join [c] (map item_text items)).
Proof.
  induction items as [|x items IH]; [contradiction|]. intros I. cbn [map]. destruct items as [|y items].
  - destruct I as [->|[]]. cbn [map]. destruct (C20_join [c] (item_text i) [] []) as (_ & -> & _). lia.
  - cbn [map]. destruct (C20_join [c] (item_text x) (item_text y) (map item_text items)) as (_ & _ & ->). rewrite !app_length. cbn [length]. destruct I as [->|I]; [lia|]. specialize (IH I). cbn [map] in IH. lia.
Qed.
Lemma split_item i : item_ok i -> len (item_text i) + 1 < 2 ^ 31 ->
  split (item_text i) [61] = Ok (match i with Name n => [n] | NameLevel n ds => [n; map (Z.add 48) ds] end).
Proof.
  intros (_ & N & D) L. destruct i as [n|n ds]; cbn [item_text item_name] in *.
  - rewrite <- (proj1 (proj2 (C20_join [61] n [] []))). apply C20_join_split; [discriminate|repeat constructor; exact N|]. rewrite (proj1 (proj2 (C20_join [61] n [] []))). exact L.
  - assert (J : join [61] [n; map (Z.add 48) ds] = n ++ [61] ++ map (Z.add 48) ds). { destruct (C20_join [61] n (map (Z.add 48) ds) []) as (_ & _ & ->). now rewrite (proj1 (proj2 (C20_join [61] (map (Z.add 48) ds) [] []))). }
    rewrite <- J in *. apply C20_join_split; [discriminate| |exact L]. constructor; [exact N|]. constructor; [|constructor]. intros I. apply in_map_iff in I. destruct I as (d & E & Id). destruct D as (_ & D). rewrite Forall_forall in D. specialize (D d Id). lia.
Qed.
Theorem C50_parse : forall s items, items <> [] -> Forall item_ok items -> Forall (fun i => item_level i <= 255) items ->
  len (join [44] (map item_text items)) + 1 < 2 ^ 31 ->
  parseDebugString s (join [44] (map item_text items)) = set_all s (map (fun i => (item_name i, item_level i)) items).
Proof.
  intros s items NE Ok255 Lv L. unfold parseDebugString. rewrite C20_join_split; [|destruct items; [congruence|discriminate]| |exact L].
  2: { apply Forall_map. eapply Forall_impl; [|exact Ok255]. intros i (N & _ & D) I. destruct i as [n|n ds]; cbn [item_text item_name] in *; [contradiction|]. rewrite !in_app_iff in I. cbn [In] in I. destruct I as [I|[[I|[]]|I]]; [contradiction|discriminate|].
       apply in_map_iff in I. destruct I as (d & E & Id). destruct D as (_ & D). rewrite Forall_forall in D. specialize (D d Id). lia. }
  cbn [bind]. assert (Ls : Forall (fun i => len (item_text i) + 1 < 2 ^ 31) items) by (apply Forall_forall; intros i I; pose proof (item_len 44 items i I); lia). clear L NE. revert s. induction items as [|i items IH]; intros s; cbn [map parse_loop set_all]; [reflexivity|].
  inversion Ok255 as [|? ? O1 O2]; subst. inversion Lv as [|? ? V1 V2]; subst. inversion Ls as [|? ? L1 L2]; subst. rewrite split_item by assumption. cbn [bind].
  replace (match (match i with Name n => [n] | NameLevel n ds => [n; map (Z.add 48) ds] end) with [_] => setDebugLevel s (item_text i) 1 | [n; v] => let! l := lexical_cast_u32 v in setDebugLevel s n (l mod 2 ^ 8) | _ => Abort end) with (setDebugLevel s (item_name i) (item_level i)).
  - destruct (setDebugLevel s (item_name i) (item_level i)) as [[s1 o1]| | |]; cbn [bind]; [|reflexivity..]. now rewrite IH.
  - destruct i as [n|n ds]; cbn [item_text item_name item_level] in *; [reflexivity|]. destruct O1 as (_ & _ & N & F). rewrite cast_number by (try assumption; lia). cbn [bind]. rewrite Z.mod_small; [reflexivity|]. pose proof (number_nonneg ds F 0 ltac:(lia)) as P. unfold number in *. lia.
Qed.
Print Assumptions C50_parse.
Example C50_parse_met : let items := [Name [120]; NameLevel [97; 42] [0; 4; 2]] in
  join [44] (map item_text items) = [120; 44; 97; 42; 61; 48; 52; 50] /\ map item_level items = [1; 42] /\ Forall item_ok items /\ Forall (fun i => item_level i <= 255) items.
Proof. cbn. repeat split; repeat constructor; cbn; try lia; try discriminate; intuition discriminate. Qed.
(** Levels above 255 wrap: "a=256" switches the category off. *)
Theorem C50_parse_level_refuted : exists s, parseDebugString log_new (item_text (NameLevel [97] [2; 5; 6])) = Ok (s, []) /\ log_step s (OWould [97] 1) = Ok (s, (Yes false, [])).
Proof. eexists. split; [vm_compute; reflexivity|]. vm_compute. reflexivity. Qed.
Print Assumptions C50_parse_level_refuted.
(** Malformed settings are refused: two equal signs, or a level that is empty, not decimal,
    or 2^32 and more. *)
Lemma cast_refuses : forall v acc, 0 <= acc < 2 ^ 32 -> (exists c, In c v /\ ~ (48 <= c <= 57)) -> cast_digits v acc = Abort.
Proof.
  induction v as [|c v IH]; intros acc A (x & I & N); [destruct I|]. cbn [cast_digits]. destruct ((48 <=? c) && (c <=? 57)) eqn:B; [|reflexivity]. destruct (Z.ltb_spec (10 * acc + (c - 48)) (2 ^ 32)) as [L|L]; [|reflexivity]. apply IH; [lia|]. exists x. split; [|exact N]. destruct I as [->|I]; [lia|exact I].
Qed.
Lemma cast_overflow : forall ds acc, Forall (fun d => 0 <= d <= 9) ds -> 0 <= acc < 2 ^ 32 -> 2 ^ 32 <= fold_left (fun a d => 10 * a + d) ds acc -> cast_digits (map (Z.add 48) ds) acc = Abort.
Proof.
  induction ds as [|d ds IH]; intros acc F A B; cbn [fold_left map cast_digits] in *; [lia|]. inversion F as [|? ? Fd Fr]; subst. replace ((48 <=? 48 + d) && (48 + d <=? 57)) with true by lia. replace (10 * acc + (48 + d - 48)) with (10 * acc + d) by lia.
  destruct (Z.ltb_spec (10 * acc + d) (2 ^ 32)) as [L|L]; [|reflexivity]. apply IH; [exact Fr|lia|exact B].
Qed.
Lemma cast_nosign v : hd_error v <> Some 43 -> hd_error v <> Some 45 -> lexical_cast_u32 v = match v with [] => Abort | _ => cast_digits v 0 end.
Proof.
  intros P M. unfold lexical_cast_u32. destruct v as [|c v]; [reflexivity|]. cbn [hd_error] in *. destruct c as [|x|x]; try reflexivity. repeat (destruct x as [x|x|]; try reflexivity); congruence.
Qed.
Lemma parse_one s text : ~ In 44 text -> len text + 1 < 2 ^ 31 -> parseDebugString s text = parse_loop s [text].
Proof.
  intros N L. unfold parseDebugString. rewrite <- (proj1 (proj2 (C20_join [44] text [] []))) at 1. rewrite C20_join_split; [reflexivity|discriminate|repeat constructor; exact N|]. now rewrite (proj1 (proj2 (C20_join [44] text [] []))).
Qed.
Theorem C50_parse_refuses : forall s n a b, ~ In 44 (n ++ a ++ b) -> ~ In 61 (n ++ a ++ b) -> len (n ++ a ++ b) + 3 < 2 ^ 31 ->
  parseDebugString s (n ++ [61] ++ a ++ [61] ++ b) = Abort /\
  ((a = [] \/ (hd_error a <> Some 43 /\ hd_error a <> Some 45 /\ exists c, In c a /\ ~ (48 <= c <= 57)) \/ exists ds, a = map (Z.add 48) ds /\ Forall (fun d => 0 <= d <= 9) ds /\ 2 ^ 32 <= number ds) ->
    parseDebugString s (n ++ [61] ++ a) = Abort).
Proof.
  intros s n a b N44 N61 L. rewrite !in_app_iff in N44, N61. rewrite !app_length in L.
  assert (J1 : join [61] [n; a] = n ++ [61] ++ a). { destruct (C20_join [61] n a []) as (_ & _ & ->). now rewrite (proj1 (proj2 (C20_join [61] a [] []))). }
  assert (J2 : join [61] [n; a; b] = n ++ [61] ++ a ++ [61] ++ b). { destruct (C20_join [61] n a [b]) as (_ & _ & ->). destruct (C20_join [61] a b []) as (_ & _ & ->). now rewrite (proj1 (proj2 (C20_join [61] b [] []))). }
  split.
  - rewrite parse_one; [| |]; [|rewrite !in_app_iff; cbn [In]; intuition congruence|rewrite !app_length; cbn [length]; lia]. cbn [parse_loop]. rewrite <- J2. rewrite C20_join_split; [reflexivity|discriminate|repeat constructor; tauto|]. rewrite J2, !app_length. cbn [length]. lia.
  - intros H. rewrite parse_one; [| |]; [|rewrite !in_app_iff; cbn [In]; intuition congruence|rewrite !app_length; cbn [length]; lia]. cbn [parse_loop]. rewrite <- J1. rewrite C20_join_split; [|discriminate|repeat constructor; tauto|rewrite J1, !app_length; cbn [length]; lia]. cbn [bind].
    assert (Q : lexical_cast_u32 a = Abort). { destruct H as [->|[(P & M & E)|(ds & -> & F & B)]]; [reflexivity| |].
      - rewrite cast_nosign by assumption. destruct a as [|x a]; [reflexivity|]. apply cast_refuses; [lia|exact E].
      - destruct ds as [|d ds]; [unfold number in B; cbn in B; lia|]. inversion F; subst. rewrite cast_nosign; [| |]; [|cbn [map hd_error]; intros X; assert (48 + d = 43 \/ 48 + d = 45) by (left + right; congruence); lia..]. apply cast_overflow; [assumption|lia|exact B]. }
    rewrite Q. reflexivity.
Qed.
Print Assumptions C50_parse_refuses.

(** A run with settings, uses, a warning-free log and two appenders. *)
Example C50_run : run_ops log_step log_new
  [OSet abc 3; OWould [97; 98] 1; OSet [97; 42] 7; OLevel 0; OCategory [97; 98]; OWouldId 1 8; OLog Info [104]; OAppender 5; OAppender 6; OLog Error [105]; OReserve 1]
  = [Ok (Done, []); Ok (Yes false, []); Ok (Done, []); Ok (Level 7, []); Ok (Id 1, []); Ok (Yes false, []); Ok (Done, [(Console, Info, Text [104])]); Ok (Done, []); Ok (Done, []);
     Ok (Done, [(Appender 5, Error, Text [105]); (Appender 6, Error, Text [105])]); Abort].
Proof. vm_compute. reflexivity. Qed.
