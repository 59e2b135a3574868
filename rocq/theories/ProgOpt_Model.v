(** Model of the wrapper around boost::program_options (include/Lintel/ProgramOptions.hpp
    and src/ProgramOptions.cpp). The parsers of boost are an argument: [boost] of the
    specification, with any behaviour. The default values' text and the descriptions are
    not modelled; basicWordWrap is in WordWrap_Model. *)
From Coq Require Import List Arith ZArith Bool.
From Verif Require Import Common StrInt_Model ProgOpt_Spec.
Import ListNotations.

Section Model.
Context {V : Type}.
Notation text := (list Z).
Variable boost : parsers V.
Variable columns : option text.              (* getenv("COLUMNS") *)

(** A ProgramOption object (ProgramOptions.hpp:254-255 and 323): saved and default_val, or
    val. [m_alive] is false once it has been destroyed. *)
Record obj := mk_obj { m_saved : option V; m_def : option V; m_val : bool; m_flag : bool; m_alive : bool }.
(** One of the functions bound in init (ProgramOptions.hpp:235-236, 307-308): the object, the
    name and do_help. *)
Record initfn := mk_init { i_obj : nat; i_name : text; i_help : bool }.
(** The objects of the process, init_fns (ProgramOptions.cpp:70-73), the descriptions desc
    and hidden (124-125) and po_pairs (130). *)
Record reg := mk_reg { r_objs : list obj; r_init : list initfn; r_desc : list decl; r_hidden : list decl;
                       r_pairs : list (text * nat) }.

Fixpoint update (l : list obj) (i : nat) (x : obj) : list obj :=
  match l, i with
  | [], _ => []
  | _ :: r, O => x :: r
  | y :: r, S i => y :: update r i x
  end.
(** Any use of an object: undefined when it has been destroyed *)
Definition object (g : reg) (i : nat) : res obj :=
  match nth_error (r_objs g) i with
  | Some x => if m_alive x then Ok x else UB
  | None => UB
  end.
Definition put (g : reg) (i : nat) (x : obj) : reg :=
  mk_reg (update (r_objs g) i x) (r_init g) (r_desc g) (r_hidden g) (r_pairs g).

(** The constructors (ProgramOptions.hpp:193-206, 225-230, 279-283, 298-302) and init
    (233-237, 305-309) with addProgramOptionInitFn (ProgramOptions.cpp:95-97). *)
Definition construct (g : reg) (name : text) (hidden flag : bool) (def : option V) : reg * nat :=
  let i := length (r_objs g) in
  (mk_reg (r_objs g ++ [mk_obj None def false flag true])
          (r_init g ++ [mk_init i name (negb hidden)]) (r_desc g) (r_hidden g) (r_pairs g), i).
(** Destruction: implicit, it unregisters nothing. *)
Definition destroy (g : reg) (i : nat) : res reg :=
  let! x := object g i in Ok (put g i (mk_obj (m_saved x) (m_def x) (m_val x) (m_flag x) false)).
(** po_help (ProgramOptions.cpp:16), taken to be made before every other option. *)
Definition start : reg :=
  fst (construct (mk_reg [] [] [] [] []) help_name false true None).

(** used() and get() (ProgramOptions.hpp:208-218, 285-291) *)
Definition used (x : obj) : bool :=
  if m_flag x then m_val x else match m_saved x with Some _ => true | None => false end.
Definition get (x : obj) : res (pout V) :=
  if m_flag x then Ok (OFlag (m_val x) (used x))
  else match m_saved x with
       | Some v => Ok (OValue v (used x))
       | None => match m_def x with Some d => Ok (OValue d (used x)) | None => UB end
       end.
(** set() (ProgramOptions.hpp:220-222, 293-295) *)
Definition set_value (g : reg) (i : nat) (v : V) : res reg :=
  let! x := object g i in
  if m_flag x then UB else Ok (put g i (mk_obj (Some v) (m_def x) (m_val x) (m_flag x) true)).
Definition set_flag (g : reg) (i : nat) (b : bool) : res reg :=
  let! x := object g i in
  if m_flag x then Ok (put g i (mk_obj (m_saved x) (m_def x) b (m_flag x) true)) else UB.
(** save() (ProgramOptions.hpp:248-252, 317-321) *)
Definition save (g : reg) (i : nat) (found : option V) : res reg :=
  let! x := object g i in
  match found with
  | None => Ok g
  | Some v => if m_flag x then Ok (put g i (mk_obj (m_saved x) (m_def x) true (m_flag x) true))
              else Ok (put g i (mk_obj (Some v) (m_def x) (m_val x) (m_flag x) true))
  end.

(** getHelpWidth (ProgramOptions.cpp:107-119). Its value is kept in a static by
    programOptionsDesc; the environment is taken not to change, so computing it each time is
    the same. *)
Definition getHelpWidth : res Z :=
  match columns with
  | Some env => stringToInteger (mk_itype false 32) env 10
  | None => Ok 80%Z
  end.
(** doInit (ProgramOptions.hpp:239-246, 311-315), programOptionsDesc (ProgramOptions.cpp:121-127) *)
Definition doInit (g : reg) (f : initfn) : res reg :=
  let! x := object g (i_obj f) in
  let! _ := getHelpWidth in
  let d := mk_decl (i_name f) (m_flag x) in
  Ok (mk_reg (r_objs g) (r_init g)
             (if negb (i_help f) then r_desc g else r_desc g ++ [d])
             (if negb (i_help f) then r_hidden g ++ [d] else r_hidden g)
             (r_pairs g ++ [(i_name f, i_obj f)])).
(** runProgramOptionInitFns (ProgramOptions.cpp:99-105) *)
Fixpoint run_inits (g : reg) (l : list initfn) : res reg :=
  match l with
  | [] => Ok g
  | f :: r => let! g := doInit g f in run_inits g r
  end.
Definition runProgramOptionInitFns (g : reg) : res reg :=
  let! g := run_inits g (r_init g) in
  Ok (mk_reg (r_objs g) [] (r_desc g) (r_hidden g) (r_pairs g)).

(** A variables_map, and po::store: what is already stored is not overwritten. *)
Definition var_map : Type := list (text * V).
Fixpoint var_at (m : var_map) (n : text) : option V :=
  match m with
  | [] => None
  | (k, v) :: r => if text_eqb k n then Some v else var_at r n
  end.
Fixpoint store (found : list (text * V)) (m : var_map) : var_map :=
  match found with
  | [] => m
  | (k, v) :: r => store r (match var_at m k with Some _ => m | None => m ++ [(k, v)] end)
  end.
(** iter->first.find(',') *)
Fixpoint find_comma (n : text) : option nat :=
  match n with
  | [] => None
  | c :: r => if Z.eqb c 44 then Some O else match find_comma r with Some p => Some (S p) | None => None end
  end.
(** processOptions (ProgramOptions.cpp:77-92) *)
Fixpoint processOptions (g : reg) (pairs : list (text * nat)) (m : var_map) : res reg :=
  match pairs with
  | [] => Ok g
  | (n, i) :: r =>
    let! key := match find_comma n with
                | Some pos => if negb (0 <? pos) then Abort else Ok (firstn pos n)
                | None => Ok n
                end in
    let! g := save g i (var_at m key) in
    processOptions g r m
  end.
(** parseCommandLine (ProgramOptions.cpp:200-218), basicParseCommandLine (49-59) and
    po_vm_store (34-41). An exception of boost leaves the function where it is thrown. *)
Definition parseCommandLine (g : reg) (args : list text) (allow_unrecognized : bool) : res (reg * pout V) :=
  let! g := runProgramOptionInitFns g in
  match on_args boost (r_desc g) args with
  | None => Ok (g, OThrew)
  | Some (found, unrecognized) =>
    let m := store found [] in
    match on_args boost (r_hidden g) unrecognized with
    | None => Ok (g, OThrew)
    | Some (found, unrecognized) =>
      let m := store found m in
      if negb (allow_unrecognized || (length unrecognized =? 0)) then Abort
      else
        let! g := processOptions g (r_pairs g) m in
        let! h := object g 0 in
        if m_val h then Ok (g, OExit) else Ok (g, OArgs unrecognized)
    end
  end.
(** parseConfigFile (ProgramOptions.hpp:340-348), the stream given *)
Definition parseConfigFile (g : reg) (file : text) : res (reg * pout V) :=
  let! g := runProgramOptionInitFns g in
  match on_file boost (r_desc g) file with
  | None => Ok (g, OThrew)
  | Some found =>
    let! g := processOptions g (r_pairs g) (store found []) in
    Ok (g, ODone)
  end.

Definition pstep (g : reg) (o : pop V) : res (reg * pout V) :=
  match o with
  | PNew n hd fl d => let (g, i) := construct g n hd fl (Some d) in Ok (g, OMade i)
  | PSet i v => let! g := set_value g i v in Ok (g, ODone)
  | PSetFlag i b => let! g := set_flag g i b in Ok (g, ODone)
  | PGet i => let! x := object g i in let! out := get x in Ok (g, out)
  | PParse args allow => parseCommandLine g args allow
  | PConfig file => parseConfigFile g file
  end.
(** A program, up to an assertion or the exit(0) of the usage *)
Fixpoint prun (g : reg) (ops : list (pop V)) : list (res (pout V)) :=
  match ops with
  | [] => []
  | o :: r => match pstep g o with
              | Ok (_, OExit) => [Ok OExit]
              | Ok (g', out) => Ok out :: prun g' r
              | Abort => [Abort]
              | UB => [UB]
              | Fuel => [Fuel]
              end
  end.
End Model.
Arguments obj : clear implicits.
Arguments reg : clear implicits.

(** A small parser of the kind boost has, to show concrete runs: --name=value and --name,
    "--" before positional arguments; unknown options and positional arguments are left
    over. Values are texts. *)
Definition dashes : list Z := [45; 45]%Z.
Fixpoint split_eq (s : list Z) : list Z * option (list Z) :=
  match s with
  | [] => ([], None)
  | c :: r => if Z.eqb c 61 then ([], Some r) else let (a, b) := split_eq r in (c :: a, b)
  end.
Fixpoint long_options (ds : list decl) (args : list (list Z)) : option (list (list Z * list Z) * list (list Z)) :=
  match args with
  | [] => Some ([], [])
  | a :: r =>
    if text_eqb a dashes then Some ([], r)
    else match long_options ds r with
         | None => None
         | Some (f, l) =>
           if text_eqb (firstn 2 a) dashes then
             let (n, v) := split_eq (skipn 2 a) in
             match find (fun d => text_eqb (long (d_name d)) n) ds with
             | None => Some (f, a :: l)
             | Some d => match d_flag d, v with
                         | true, None => Some ((n, []) :: f, l)
                         | false, Some v => Some ((n, v) :: f, l)
                         | _, _ => None
                         end
             end
           else Some (f, a :: l)
         end
  end.
Definition simple_boost : parsers (list Z) := mk_parsers long_options (fun _ _ => Some []).
