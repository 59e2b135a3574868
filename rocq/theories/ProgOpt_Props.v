(** C83: program options. *)
From Coq Require Import List Arith ZArith Bool Lia.
From Verif Require Import Common StrInt_Model ProgOpt_Spec ProgOpt_Model ProgOpt_Proofs.
Import ListNotations.

(** Every program that makes options, sets and reads them and parses command lines and
    files, in any order, sees what the specification says, whatever boost's parsers do:
    an option holds what was found or set for it last, else its default; a parse that
    throws changes nothing; --help ends the program; an option made after a parse takes part
    in the next; asserts happen where specified; and there is undefined behaviour only
    when an option that does not exist, or of the other kind, is used. Options that are
    destroyed are excluded. *)
Theorem C83_history_partial : forall (V : Type) (boost : parsers V) (columns : option (list Z)) (ops : list (pop V)),
  prun boost columns start ops = pspec_run boost columns [] ops.
Proof. intros V boost columns ops. apply run_ok. apply start_R. Qed.
Print Assumptions C83_history_partial.

(** Texts: "seed,s", "t", "v", "--seed=5" and so on *)
Definition seed_s : list Z := [115; 101; 101; 100; 44; 115]%Z.
Definition dash_seed (d : Z) : list Z := [45; 45; 115; 101; 101; 100; 61; d]%Z.
Definition dash (n : Z) : list Z := [45; 45; n]%Z.
Definition dash_eq (n d : Z) : list Z := [45; 45; n; 61; d]%Z.
Definition dash_help : list Z := [45; 45; 104; 101; 108; 112]%Z.

(** seed with default 1, hidden t, flag v: parse, set, parse again, a late option, a parse
    that throws (--v=3 for a flag), help *)
Example C83_history_ex :
  prun simple_boost (Some [56; 48]%Z) start
    [ PNew seed_s false false [49]%Z; PNew [116]%Z true false [48]%Z; PNew [118]%Z false true [];
      PGet 1; PParse [dash_seed 53; [120]%Z; dash_eq 116 55] true; PGet 1; PGet 2; PGet 3;
      PSet 1 [54]%Z; PNew [119]%Z false true []; PParse [dash 118; dash 119] false; PGet 1; PGet 3; PGet 4;
      PParse [dash_eq 118 51; dash_seed 57] true; PGet 1; PSetFlag 3 false; PGet 3; PConfig []; PGet 3;
      PParse [dash_help] false; PGet 1 ]
  = [ Ok (OMade 1); Ok (OMade 2); Ok (OMade 3);
      Ok (OValue [49]%Z false); Ok (OArgs [[120]%Z]); Ok (OValue [53]%Z true); Ok (OValue [55]%Z true); Ok (OFlag false false);
      Ok ODone; Ok (OMade 4); Ok (OArgs []); Ok (OValue [54]%Z true); Ok (OFlag true true); Ok (OFlag true true);
      Ok OThrew; Ok (OValue [54]%Z true); Ok ODone; Ok (OFlag false false); Ok ODone; Ok (OFlag false false);
      Ok OExit ].
Proof. vm_compute. reflexivity. Qed.

(** An option that is not a global must outlive every later parse. Once one was destroyed,
    after whatever program, no command line is parsed successfully again: what boost
    accepts ends in undefined behaviour or an assertion. *)
Theorem C83_destroyed_refuted : forall (V : Type) (boost : parsers V) columns before after g i g1 g2 args allow,
  pstate boost columns start before = Ok g -> destroy g i = Ok g1 -> pstate boost columns g1 after = Ok g2 ->
  match parseCommandLine boost columns g2 args allow with
  | Ok (_, out) => out = OThrew
  | Abort | UB => True
  | Fuel => True
  end.
Proof.
  intros V boost columns before after g i g1 g2 args allow E1 E2 E3.
  destruct (state_R boost columns before start [] g (start_R columns) E1) as [h HR].
  pose proof (destroy_dangling columns g h i g1 HR E2) as D.
  pose proof (state_dangling boost columns after g1 i g2 D E3) as D2.
  pose proof (parse_dangling boost columns g2 i args allow D2) as P.
  destruct (parseCommandLine boost columns g2 args allow) as [[g3 []]| | |]; try exact I; try contradiction; reflexivity.
Qed.
Print Assumptions C83_destroyed_refuted.

(** A local option, used, gone; then an empty command line *)
Example C83_destroyed_ex : exists g g1 r,
  pstate simple_boost None start [PNew [116]%Z false false [48]%Z; PParse [dash_eq 116 55] false] = Ok g /\
  destroy g 1 = Ok g1 /\ pstate simple_boost None g1 [PNew [117]%Z false true []] = Ok r /\
  parseCommandLine simple_boost None r [] false = UB.
Proof. do 3 eexists. repeat split. Qed.

(** A COLUMNS that is not a number, which says nothing about the program, ends every program
    at its first parse. *)
Theorem C83_columns_refuted : forall (V : Type) (boost : parsers V) s before g args allow file,
  columns_ok (Some s) = false -> pstate boost (Some s) start before = Ok g ->
  parseCommandLine boost (Some s) g args allow = Abort /\ parseConfigFile boost (Some s) g file = Abort.
Proof.
  intros V boost s before g args allow file C E.
  destruct (state_R boost (Some s) before start [] g (start_R (Some s)) E) as [h HR].
  unfold parseCommandLine, parseConfigFile. rewrite (init_abort (Some s) g h C HR). split; reflexivity.
Qed.
Print Assumptions C83_columns_refuted.

(** COLUMNS="" and COLUMNS="80 " *)
Example C83_columns_ex : columns_ok (Some []) = false /\ columns_ok (Some [56; 48; 32]%Z) = false /\
  columns_ok (Some [45; 49]%Z) = true /\
  exists g, pstate simple_boost (Some []) start [PNew seed_s false false [49]%Z; PGet 1] = Ok g.
Proof. repeat split. eexists. reflexivity. Qed.

(** Arguments after "--" are to be left over even when they look like options. They are when
    no option is hidden; but a hidden option takes them, since what the first parse leaves
    over is parsed again without the "--". *)
Lemma none_declared : forall args, (forall a, In a args -> a <> dashes) -> long_options [] args = Some ([], args).
Proof.
  induction args as [|a args IH]; intros H; cbn [long_options]; [reflexivity|].
  destruct (text_eqb a dashes) eqn:E; [exfalso; apply (H a (or_introl eq_refl)); exact (text_eqb_true _ _ E)|].
  rewrite IH by (intros b I; apply H; right; exact I).
  destruct (text_eqb (firstn 2 a) dashes); [|reflexivity].
  destruct (split_eq (skipn 2 a)). reflexivity.
Qed.
Theorem C83_terminator_partial : forall columns names args,
  columns_ok columns = true -> forallb (fun n => negb (bad_name n)) names = true ->
  (forall a, In a args -> a <> dashes) ->
  prun simple_boost columns start (map (fun n => PNew n false false [48]%Z) names ++ [PParse (dashes :: args) true])
  = map (fun i => Ok (OMade i)) (seq 1 (length names)) ++ [Ok (OArgs args)].
Proof.
  intros columns names args C N H. rewrite C83_history_partial.
  assert (G : forall names (h : hist (list Z)),
    forallb (fun n => negb (bad_name n)) names = true ->
    existsb (fun o => bad_name (o_name o)) (options h) = false -> declared true h = [] -> flagged 0 help_name h = false ->
    pspec_run simple_boost columns h (map (fun n => PNew n false false [48]%Z) names ++ [PParse (dashes :: args) true])
    = map (fun i => Ok (OMade i)) (seq (length (options h)) (length names)) ++ [Ok (OArgs args)]).
  { clear names N. induction names as [|n names IH]; intros h N B D F.
    - cbn [map app seq length pspec_run pspec]. rewrite C. cbn [negb on_args simple_boost].
      change (long_options (declared false h) (dashes :: args)) with (Some (@nil (list Z * list Z), args)).
      cbv iota. rewrite D, (none_declared args H). cbn [negb andb app]. rewrite B. cbn [flagged found_for]. rewrite F. reflexivity.
    - cbn [map app seq length pspec_run pspec]. f_equal. cbn [forallb] in N. apply andb_prop in N as [N1 N2].
      rewrite IH; [|exact N2|..].
      + cbn [options]. rewrite app_length. cbn [length]. rewrite Nat.add_1_r. reflexivity.
      + cbn [options]. rewrite existsb_app, B. cbn. destruct (bad_name n); [discriminate N1|reflexivity].
      + unfold declared in *. cbn [options]. rewrite filter_app, map_app, D. reflexivity.
      + cbn [flagged]. destruct (help_first h) as [l ->]. cbn [length Nat.eqb]. exact F. }
  apply (G names []); [exact N|reflexivity..].
Qed.
Print Assumptions C83_terminator_partial.
Example C83_terminator_ex :
  prun simple_boost None start (map (fun n => PNew n false false [48]%Z) [[116]%Z] ++ [PParse (dashes :: [dash_eq 116 55]) true])
  = [Ok (OMade 1); Ok (OArgs [dash_eq 116 55])].
Proof. apply (C83_terminator_partial None [[116]%Z]); try reflexivity. intros a [<-|[]]. discriminate. Qed.
Theorem C83_terminator_refuted : forall d,
  prun simple_boost None start [PNew [116]%Z true false [48]%Z; PParse [dashes; dash_eq 116 d] true; PGet 1]
  = [Ok (OMade 1); Ok (OArgs []); Ok (OValue [d] true)].
Proof. intros d. reflexivity. Qed.
Print Assumptions C83_terminator_refuted.
