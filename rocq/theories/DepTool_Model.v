(** Model of src/TestUtil.cpp (getDeptoolInfo) and of DeptoolInfo in
    include/Lintel/TestUtil.hpp. Strings are lists of byte values. *)
From Coq Require Import String Ascii ZArith Bool List.
From Verif Require Import Common StringUtil_Spec StringUtil_Model.
Import ListNotations.
Local Open Scope Z_scope.

(** A string literal *)
Definition lit (s : string) : str := map (fun a => Z.of_N (N_of_ascii a)) (list_ascii_of_string s).
(** The environment variables that are read; a value of the environment holds no NUL. *)
Record env := { BUILD_OS : option str; UNAME_M : option str; DEPTOOL : option str }.
(** TestUtil.hpp:60-72 *)
Record DeptoolInfo := { os : str; version : str; arch : str }.
Definition osVersion (d : DeptoolInfo) : str := os d ++ lit "-" ++ version d.
Definition osVersionArch (d : DeptoolInfo) : str := os d ++ lit "-" ++ version d ++ lit "-" ++ arch d.
Definition empty (s : str) : bool := match s with [] => true | _ => false end.
Definition haveAllInfo (d : DeptoolInfo) : bool := negb (empty (os d) || empty (version d) || empty (arch d)).
(** TestUtil.cpp:18-25 *)
Definition getEnv (v : option str) : str := match v with Some s => s | None => [] end.
(** TestUtil.cpp:27-36 *)
Definition extractEnv (from : str) : res str :=
  let first_quote := string_find from [34] 0 in
  let! _ := invariant (negb (first_quote =? npos)) in
  let last_quote := string_find from [34] (first_quote + 1) in
  let! _ := invariant (negb (last_quote =? npos)) in
  let! _ := invariant (len from =? last_quote + 3) in
  let! ret := substr from (first_quote + 1) (last_quote - (first_quote + 1)) in
  let! _ := invariant (negb (empty ret)) in
  Ok ret.
(** fgets(buf, n + 1, f): at most n bytes, up to and with a newline. The stream is what is
    still to be read and the end-of-file flag, which a read at the end sets. *)
Fixpoint fgets_loop (n : nat) (f : str) (buf : str) : str * (str * bool) :=
  match n with
  | O => (buf, (f, false))
  | S n => match f with
           | [] => (buf, ([], true))
           | c :: f => if c =? 10 then (buf ++ [c], (f, false)) else fgets_loop n f (buf ++ [c])
           end
  end.
(** NULL when the end comes before the first byte *)
Definition fgets (n : nat) (f : str) : option str * (str * bool) :=
  let (buf, f') := fgets_loop n f [] in
  if snd f' && empty buf then (None, f') else (Some buf, f').
(** string(buf): up to the first NUL *)
Fixpoint c_str (buf : str) : str :=
  match buf with [] => [] | c :: t => if c =? 0 then [] else c :: c_str t end.
(** TestUtil.cpp:63-71; buf_size is 200. *)
Fixpoint deptool_loop (fuel : nat) (f : str) (eof : bool) (build_os arch : str) : res (str * str) :=
  match fuel with
  | O => Fuel
  | S fuel =>
      if eof then Ok (build_os, arch)
      else match fgets 199 f with
           | (None, _) => Ok (build_os, arch)
           | (Some buf, (f, eof)) =>
               let str_buf := c_str buf in
               let! _ := invariant (negb (empty str_buf) && (last str_buf 0 =? 10)) in
               if prefixequal str_buf (lit "export BUILD_OS=""") then
                 let! v := extractEnv str_buf in deptool_loop fuel f eof v arch
               else if prefixequal str_buf (lit "export UNAME_M=""") then
                 let! v := extractEnv str_buf in deptool_loop fuel f eof build_os v
               else deptool_loop fuel f eof build_os arch
           end
  end.
(** The command line, TestUtil.cpp:46-53 *)
Definition command (e : env) : str :=
  (if empty (getEnv (DEPTOOL e)) then lit "deptool" else lit "perl " ++ getEnv (DEPTOOL e)) ++ lit " getenv for-sh".
(** TestUtil.cpp:77-86 *)
Definition dashes (build_os arch : str) : res DeptoolInfo :=
  let dash_pos := string_find build_os [45] 0 in
  let! _ := invariant (negb (dash_pos =? npos)) in
  let! o := substr build_os 0 dash_pos in
  let! v := substr build_os (dash_pos + 1) (len build_os - (dash_pos + 1)) in
  Ok {| os := o; version := v; arch := arch |}.
(** getDeptoolInfo, TestUtil.cpp:41-87. [popen] gives for each command line what the process
    writes to its standard output, or None if popen returns NULL. The pipe is not closed
    (a leak the model does not show). *)
Definition getDeptoolInfo (popen : str -> option str) (e : env) : res DeptoolInfo :=
  let build_os := getEnv (BUILD_OS e) in
  let arch := getEnv (UNAME_M e) in
  if empty build_os || empty arch then
    match popen (command e) with
    | None => Ok {| os := []; version := []; arch := [] |}
    | Some f =>
        let! (build_os, arch) := deptool_loop (S (length f)) f false build_os arch in
        let! _ := invariant (negb (empty build_os) && negb (empty arch)) in
        dashes build_os arch
    end
  else dashes build_os arch.
