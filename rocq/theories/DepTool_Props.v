(** C87: getDeptoolInfo, with which tests ask what system they run on. *)
From Coq Require Import String Ascii ZArith Bool Lia List.
From Verif Require Import Common StringUtil_Spec StringUtil_Model DepTool_Model DepTool_Spec DepTool_Proofs.
Import ListNotations.
Local Open Scope Z_scope.

Definition no_env : env := {| BUILD_OS := None; UNAME_M := None; DEPTOOL := None |}.

(** With both variables set the answer is made of them, and no process is run: the same
    whatever popen would do. *)
Theorem C87_environment popen e b a :
  BUILD_OS e = Some b -> UNAME_M e = Some a -> b <> [] -> a <> [] -> sane e -> answer b a (getDeptoolInfo popen e).
Proof.
  intros B A Nb Na S. unfold getDeptoolInfo, sane in *. rewrite B, A in *. cbn [getEnv] in *.
  apply empty_false in Nb. apply empty_false in Na. rewrite Nb, Na. cbn [orb]. now apply dashes_answer.
Qed.
Example C87_environment_example :
  getDeptoolInfo (fun _ => None) {| BUILD_OS := Some (lit "debian-7.0-x"); UNAME_M := Some (lit "i386"); DEPTOOL := None |} =
  Ok {| os := lit "debian"; version := lit "7.0-x"; arch := lit "i386" |}.
Proof. reflexivity. Qed.
Print Assumptions C87_environment.

(** The parts put together again are the whole. *)
Theorem C87_parts b a d r : answer b a r -> r = Ok d -> osVersion d = b /\ osVersionArch d = b ++ lit "-" ++ a /\ arch d = a /\
  (haveAllInfo d = true <-> os d <> [] /\ version d <> [] /\ a <> []).
Proof.
  intros (H & N) ->. destruct (in_dec_Z 45 b) as [I|I]; [|discriminate (N I)].
  destruct (first_split _ _ I) as (o & v & E & No). pose proof (H o v E No) as K. injection K as ->. subst b.
  unfold osVersion, osVersionArch, haveAllInfo. cbn [os version arch]. change (lit "-") with [45].
  split; [reflexivity|]. split; [now rewrite <- app_assoc|]. split; [reflexivity|].
  rewrite negb_true_iff, !orb_false_iff, !empty_false. tauto.
Qed.
Example C87_parts_example : exists d,
  answer (lit "centos-5.3") (lit "x86_64") (Ok d) /\ osVersionArch d = lit "centos-5.3-x86_64" /\ haveAllInfo d = true.
Proof.
  exists {| os := lit "centos"; version := lit "5.3"; arch := lit "x86_64" |}. split; [|split; reflexivity].
  change (answer (lit "centos-5.3") (lit "x86_64") (dashes (lit "centos-5.3") (lit "x86_64"))). apply dashes_answer. reflexivity.
Qed.
Print Assumptions C87_parts.

(** Otherwise deptool is asked. For every output made of lines of at most 198 characters, in
    which the settings have the form deptool gives them, the last setting of each variable
    counts, or else its value in the environment; and it is an error if one has none. Missing:
    other outputs (see the theorems below). *)
Theorem C87_deptool_partial popen e ls :
  getEnv (BUILD_OS e) = [] \/ getEnv (UNAME_M e) = [] -> sane e ->
  popen (command e) = Some (lines (map render ls)) ->
  Forall proper ls -> Forall (fun l => (length (render l) <= 198)%nat) ls ->
  let b := last_os ls (getEnv (BUILD_OS e)) in
  let a := last_arch ls (getEnv (UNAME_M e)) in
  (b <> [] -> a <> [] -> answer b a (getDeptoolInfo popen e)) /\
  (b = [] \/ a = [] -> getDeptoolInfo popen e = Abort).
Proof.
  intros M S P Pr L b a. unfold getDeptoolInfo, sane in *.
  assert (G : empty (getEnv (BUILD_OS e)) || empty (getEnv (UNAME_M e)) = true).
  { apply orb_true_iff. destruct M as [M|M]; [left|right]; now apply empty_iff. }
  rewrite G, P.
  assert (L' : Forall (fun l => (length (render l) < 199)%nat) ls) by (eapply Forall_impl; [|exact L]; cbn; intros; lia).
  destruct (run_lines ls [] (getEnv (BUILD_OS e)) (getEnv (UNAME_M e)) Pr L') as (fuel & E). rewrite app_nil_r in E. rewrite E, loop_end.
  cbn [bind]. fold b a. split.
  - intros Nb Na. apply empty_false in Nb. apply empty_false in Na. rewrite Nb, Na. cbn [negb andb invariant bind].
    apply dashes_answer. now apply last_os_len.
  - intros [N|N]; rewrite N; [reflexivity|]. destruct (empty b); reflexivity.
Qed.
Example C87_deptool_example :
  let ls := [Other (lit "export PATH=""/usr/bin"";"); SetOs (lit "ubuntu-11.10") 59; SetArch (lit "x86_64") 59] in
  Forall proper ls /\ Forall (fun l => (length (render l) <= 198)%nat) ls /\
  getDeptoolInfo (fun c => if str_eqb c (lit "deptool getenv for-sh") then Some (lines (map render ls)) else None) no_env =
  Ok {| os := lit "ubuntu"; version := lit "11.10"; arch := lit "x86_64" |}.
Proof.
  assert (O : forall s, forallb (fun c => negb (c =? 10) && negb (c =? 0)) s = true -> one_line s).
  { intros s H. rewrite forallb_forall in H. split; intros I; specialize (H _ I); discriminate. }
  split; [|split; [repeat constructor; vm_compute; lia|reflexivity]].
  repeat constructor; try (apply O; reflexivity); try discriminate.
  - intros (t & E). discriminate.
  - intros (t & E). discriminate.
  - intros I. repeat (destruct I as [I|I]; [discriminate|]). destruct I.
  - intros I. repeat (destruct I as [I|I]; [discriminate|]). destruct I.
Qed.
Print Assumptions C87_deptool_partial.

(** A setting in another form, a last line that is not ended, or a line with a NUL is an
    error, wherever it stands. *)
Theorem C87_malformed popen e ls l rest :
  getEnv (BUILD_OS e) = [] \/ getEnv (UNAME_M e) = [] ->
  Forall proper ls -> Forall (fun l => (length (render l) <= 198)%nat) ls ->
  (broken l /\ (length l <= 198)%nat /\ popen (command e) = Some (lines (map render ls) ++ l ++ [10] ++ rest)) \/
  (In 0 l /\ ~ In 10 l /\ popen (command e) = Some (lines (map render ls) ++ l ++ [10] ++ rest)) \/
  (l <> [] /\ ~ In 10 l /\ popen (command e) = Some (lines (map render ls) ++ l)) ->
  getDeptoolInfo popen e = Abort.
Proof.
  intros M Pr L H. unfold getDeptoolInfo.
  assert (G : empty (getEnv (BUILD_OS e)) || empty (getEnv (UNAME_M e)) = true).
  { apply orb_true_iff. destruct M as [M|M]; [left|right]; now apply empty_iff. }
  rewrite G.
  assert (L' : Forall (fun l => (length (render l) < 199)%nat) ls) by (eapply Forall_impl; [|exact L]; cbn; intros; lia).
  destruct H as [(B & Ll & P)|[(Z & N & P)|(Z & N & P)]]; rewrite P.
  - destruct (run_lines ls (l ++ [10] ++ rest) (getEnv (BUILD_OS e)) (getEnv (UNAME_M e)) Pr L') as (fuel & E). rewrite E.
    cbn [app]. rewrite loop_line by (apply B || lia). rewrite broken_step by (exact B || lia). reflexivity.
  - destruct (run_lines ls (l ++ [10] ++ rest) (getEnv (BUILD_OS e)) (getEnv (UNAME_M e)) Pr L') as (fuel & E). rewrite E.
    cbn [app]. rewrite loop_nul by assumption. reflexivity.
  - destruct (run_lines ls l (getEnv (BUILD_OS e)) (getEnv (UNAME_M e)) Pr L') as (fuel & E). rewrite E.
    rewrite loop_open by assumption. reflexivity.
Qed.
Example C87_malformed_example :
  broken (lit "export BUILD_OS=""""; # none") /\
  getDeptoolInfo (fun _ => Some (lines [lit "export UNAME_M=""i386"";"; lit "export BUILD_OS=""""; # none"])) no_env = Abort.
Proof.
  assert (O : forall s, forallb (fun c => negb (c =? 10) && negb (c =? 0)) s = true -> one_line s).
  { intros s H. rewrite forallb_forall in H. split; intros I; specialize (H _ I); discriminate. }
  split; [|reflexivity]. split; [apply O; reflexivity|]. split; [left; eexists; reflexivity|].
  intros v c V Q. split; intros E.
  - destruct v as [|x v]; [now apply V|]. apply Q. left. vm_compute in E. injection E. congruence.
  - vm_compute in E. discriminate.
Qed.
Print Assumptions C87_malformed.

(** Whatever the process prints, the function ends, with an answer or an error. *)
Theorem C87_total popen e : getDeptoolInfo popen e = Abort \/ exists d, getDeptoolInfo popen e = Ok d.
Proof.
  unfold getDeptoolInfo. destruct (empty _ || empty _); [|apply fine_dashes].
  destruct (popen (command e)) as [f|]; [|right; eexists; reflexivity].
  apply fine_bind; [apply fine_loop; lia|]. intros (b & a). apply fine_bind; [apply fine_invariant|intros _; apply fine_dashes].
Qed.
Print Assumptions C87_total.

(** The command: deptool of the search path, or perl with the script DEPTOOL names; only this
    command is run, and if it cannot be started the answer is empty. *)
Theorem C87_command popen popen' e :
  (popen (command e) = popen' (command e) -> getDeptoolInfo popen e = getDeptoolInfo popen' e) /\
  (DEPTOOL e = None \/ DEPTOOL e = Some [] -> command e = lit "deptool getenv for-sh") /\
  (forall d, DEPTOOL e = Some d -> d <> [] -> command e = lit "perl " ++ d ++ lit " getenv for-sh") /\
  (getEnv (BUILD_OS e) = [] \/ getEnv (UNAME_M e) = [] -> popen (command e) = None ->
   getDeptoolInfo popen e = Ok {| os := []; version := []; arch := [] |}).
Proof.
  split; [intros E; unfold getDeptoolInfo; now rewrite E|]. split; [intros [E|E]; unfold command; now rewrite E|]. split.
  - intros d E N. unfold command. rewrite E. cbn [getEnv]. apply empty_false in N. rewrite N. now rewrite <- app_assoc.
  - intros M P. unfold getDeptoolInfo.
    assert (G : empty (getEnv (BUILD_OS e)) || empty (getEnv (UNAME_M e)) = true).
    { apply orb_true_iff. destruct M as [M|M]; [left|right]; now apply empty_iff. }
    now rewrite G, P.
Qed.
Example C87_command_example :
  command {| BUILD_OS := None; UNAME_M := None; DEPTOOL := Some (lit "/opt/d") |} = lit "perl /opt/d getenv for-sh".
Proof. reflexivity. Qed.
Print Assumptions C87_command.

(** The header promises a structure of empty strings if deptool is not present. popen starts
    a shell, and succeeds; the shell finds no such program and prints nothing on standard
    output; the caller is aborted. *)
Theorem C87_absent_refuted :
  ~ (forall e, getEnv (BUILD_OS e) = [] -> getDeptoolInfo (fun _ => Some []) e = Ok {| os := []; version := []; arch := [] |}).
Proof. intros H. specialize (H no_env eq_refl). discriminate. Qed.
Print Assumptions C87_absent_refuted.

(** A line about something else aborts the caller if it is 199 characters or longer. *)
Theorem C87_long_line popen e ls l rest :
  getEnv (BUILD_OS e) = [] \/ getEnv (UNAME_M e) = [] ->
  Forall proper ls -> Forall (fun l => (length (render l) <= 198)%nat) ls ->
  (199 <= length l)%nat -> ~ In 10 l -> popen (command e) = Some (lines (map render ls) ++ l ++ rest) ->
  getDeptoolInfo popen e = Abort.
Proof.
  intros M Pr L Ll N P. unfold getDeptoolInfo.
  assert (G : empty (getEnv (BUILD_OS e)) || empty (getEnv (UNAME_M e)) = true).
  { apply orb_true_iff. destruct M as [M|M]; [left|right]; now apply empty_iff. }
  rewrite G, P.
  assert (L' : Forall (fun l => (length (render l) < 199)%nat) ls) by (eapply Forall_impl; [|exact L]; cbn; intros; lia).
  destruct (run_lines ls (l ++ rest) (getEnv (BUILD_OS e)) (getEnv (UNAME_M e)) Pr L') as (fuel & E). rewrite E.
  rewrite loop_long by assumption. reflexivity.
Qed.
Theorem C87_long_line_refuted :
  ~ (forall e ls, getEnv (BUILD_OS e) = [] -> Forall proper ls ->
       last_os ls [] <> [] -> last_arch ls (getEnv (UNAME_M e)) <> [] ->
       answer (last_os ls []) (last_arch ls (getEnv (UNAME_M e))) (getDeptoolInfo (fun _ => Some (lines (map render ls))) e)).
Proof.
  intros H. specialize (H no_env [SetOs (lit "fedora-16") 59; SetArch (lit "i386") 59; Other (repeat 120 199)] eq_refl).
  assert (O : forall s, forallb (fun c => negb (c =? 10) && negb (c =? 0)) s = true -> one_line s).
  { intros s K. rewrite forallb_forall in K. split; intros I; specialize (K _ I); discriminate. }
  destruct H as (H & _).
  - repeat constructor; try (apply O; reflexivity); try discriminate.
    + intros I. repeat (destruct I as [I|I]; [discriminate|]). destruct I.
    + intros I. repeat (destruct I as [I|I]; [discriminate|]). destruct I.
    + intros (t & E). discriminate.
    + intros (t & E). discriminate.
  - discriminate.
  - discriminate.
  - specialize (H (lit "fedora") (lit "16") eq_refl). assert (N : ~ In 45 (lit "fedora")).
    { intros I. repeat (destruct I as [I|I]; [discriminate|]). destruct I. }
    specialize (H N). vm_compute in H. discriminate.
Qed.
Print Assumptions C87_long_line.
Print Assumptions C87_long_line_refuted.
