(** Specification of program options: what an option holds follows from the history of
    the program, by the latest event that concerns it. Independent of the model. *)
From Coq Require Import List Arith ZArith Bool.
From Verif Require Import Common.
Import ListNotations.

Section Spec.
Context {V : Type}.
Notation text := (list Z).

(** A declared option: its name as given, "long" or "long,s", and whether it takes no value *)
Record decl := mk_decl { d_name : text; d_flag : bool }.
(** What boost's parsers do with given declarations: None when they throw; else the values
    found, by long name, and the arguments left over. *)
Record parsers := mk_parsers {
  on_args : list decl -> list text -> option (list (text * V) * list text);
  on_file : list decl -> text -> option (list (text * V)) }.
Variable boost : parsers.
(** The environment variable COLUMNS is unset or a number: a sign or none, digits, below 2^32 *)
Definition decimal (s : text) : Z := fold_left (fun a c => 10 * a + (c - 48))%Z s 0%Z.
Definition plain_number (s : text) : bool :=
  negb (length s =? 0) && forallb (fun c => (48 <=? c) && (c <=? 57))%Z s && (decimal s <? 2 ^ 32)%Z.
Definition columns_ok (columns : option text) : bool :=
  match columns with
  | None => true
  | Some (43%Z :: r) => plain_number r
  | Some (45%Z :: r) => plain_number r
  | Some s => plain_number s
  end.
Variable columns : option text.

Inductive pop : Type :=
| PNew (name : text) (hidden flag : bool) (def : V)     (* a ProgramOption or TestingOption is made *)
| PSet (i : nat) (v : V)                                (* i.set(v), an option with a value *)
| PSetFlag (i : nat) (b : bool)                         (* i.set(b), an option without *)
| PGet (i : nat)                                        (* i.get() and i.used() *)
| PParse (args : list text) (allow_unrecognized : bool) (* parseCommandLine *)
| PConfig (file : text).                                (* parseConfigFile *)
Inductive pout : Type :=
| OMade (i : nat)
| ODone
| OValue (v : V) (used : bool)
| OFlag (b : bool) (used : bool)
| OArgs (l : list text)                                 (* the arguments left over *)
| OThrew                                                (* an exception of boost *)
| OExit.                                                (* the usage is printed and the program ends *)

(** Events: what happened so far, latest first *)
Inductive event : Type :=
| EMade (name : text) (hidden flag : bool) (def : V)
| ESet (i : nat) (v : V)
| ESetFlag (i : nat) (b : bool)
| EParsed (found : list (text * V)).                    (* a parse that succeeded, and what it found *)
Definition hist : Type := list event.

(** The options, in the order they were made. Option 0 is help,h. *)
Definition help_name : text := [104; 101; 108; 112; 44; 104]%Z.
Record opt := mk_opt { o_name : text; o_hidden : bool; o_flag : bool; o_def : option V }.
Definition help : opt := mk_opt help_name false true None.
Fixpoint options (h : hist) : list opt :=
  match h with
  | [] => [help]
  | EMade n hd fl d :: r => options r ++ [mk_opt n hd fl (Some d)]
  | _ :: r => options r
  end.
(** The long name: the part before the comma *)
Fixpoint long (n : text) : text :=
  match n with
  | [] => []
  | c :: r => if Z.eqb c 44 then [] else c :: long r
  end.
Definition text_eqb (a b : text) : bool := if list_eq_dec Z.eq_dec a b then true else false.
(** The first value found for a name *)
Fixpoint found_for (n : text) (l : list (text * V)) : option V :=
  match l with
  | [] => None
  | (k, v) :: r => if text_eqb k n then Some v else found_for n r
  end.
(** What an option with a value holds: the latest of set and parses that found it,
    since it was made *)
Fixpoint holds (i : nat) (name : text) (h : hist) : option V :=
  match h with
  | [] => None
  | ESet j v :: r => if i =? j then Some v else holds i name r
  | EParsed f :: r => match found_for (long name) f with Some v => Some v | None => holds i name r end
  | EMade _ _ _ _ :: r => if i =? length (options r) then None else holds i name r
  | ESetFlag _ _ :: r => holds i name r
  end.
(** and one without: true once a parse found it, until it is set *)
Fixpoint flagged (i : nat) (name : text) (h : hist) : bool :=
  match h with
  | [] => false
  | ESetFlag j b :: r => if i =? j then b else flagged i name r
  | EParsed f :: r => match found_for (long name) f with Some _ => true | None => flagged i name r end
  | EMade _ _ _ _ :: r => if i =? length (options r) then false else flagged i name r
  | ESet _ _ :: r => flagged i name r
  end.

Definition declared (hidden : bool) (h : hist) : list decl :=
  map (fun o => mk_decl (o_name o) (o_flag o)) (filter (fun o => Bool.eqb (o_hidden o) hidden) (options h)).
(** A name that starts with a comma has no long part; it is asserted against. *)
Definition bad_name (n : text) : bool := match n with c :: _ => Z.eqb c 44 | [] => false end.

Definition pspec (h : hist) (o : pop) : res (hist * pout) :=
  match o with
  | PNew n hd fl d => Ok (EMade n hd fl d :: h, OMade (length (options h)))
  | PSet i v =>
    match nth_error (options h) i with
    | Some x => if o_flag x then UB else Ok (ESet i v :: h, ODone)
    | None => UB
    end
  | PSetFlag i b =>
    match nth_error (options h) i with
    | Some x => if o_flag x then Ok (ESetFlag i b :: h, ODone) else UB
    | None => UB
    end
  | PGet i =>
    match nth_error (options h) i with
    | Some (mk_opt n _ true _) => Ok (h, OFlag (flagged i n h) (flagged i n h))
    | Some (mk_opt n _ false (Some d)) =>
      Ok (h, match holds i n h with Some v => OValue v true | None => OValue d false end)
    | _ => UB
    end
  | PParse args allow =>
    if negb (columns_ok columns) then Abort
    else match on_args boost (declared false h) args with
         | None => Ok (h, OThrew)
         | Some (f1, rest) =>
           match on_args boost (declared true h) rest with
           | None => Ok (h, OThrew)
           | Some (f2, over) =>
             if negb allow && negb (length over =? 0) then Abort
             else if existsb (fun o => bad_name (o_name o)) (options h) then Abort
             else let h := EParsed (f1 ++ f2) :: h in
                  Ok (h, if flagged 0 help_name h then OExit else OArgs over)
           end
         end
  | PConfig file =>
    if negb (columns_ok columns) then Abort
    else match on_file boost (declared false h) file with
         | None => Ok (h, OThrew)
         | Some f => if existsb (fun o => bad_name (o_name o)) (options h) then Abort
                     else Ok (EParsed f :: h, ODone)
         end
  end.
(** A program: it stops at an assertion or when the usage is printed. *)
Fixpoint pspec_run (h : hist) (ops : list pop) : list (res pout) :=
  match ops with
  | [] => []
  | o :: r => match pspec h o with
              | Ok (h', OExit) => [Ok OExit]
              | Ok (h', out) => Ok out :: pspec_run h' r
              | Abort => [Abort]
              | UB => [UB]
              | Fuel => [Fuel]
              end
  end.
End Spec.
Arguments pop : clear implicits.
Arguments pout : clear implicits.
Arguments event : clear implicits.
Arguments hist : clear implicits.
Arguments parsers : clear implicits.
Arguments opt : clear implicits.
