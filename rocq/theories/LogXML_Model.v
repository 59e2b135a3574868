(** Model of LintelLogXML::parseXML (src/LintelLogXML.cpp) and strGetXMLAttr
    (src/XMLUtil.cpp). A node is its attributes, each a name and the value xmlGetProp
    returns; the XML parser is not modelled. *)
From Coq Require Import List ZArith Bool.
From Verif Require Import Common StringUtil_Spec StringUtil_Model StrInt_Model Log_Spec Log_Model.
Import ListNotations.
Local Open Scope Z_scope.

Definition node : Type := list (str * str).
(** xmlGetProp; NULL is None. *)
Fixpoint xmlGetProp (n : node) (name : str) : option str :=
  match n with
  | [] => None
  | (a, v) :: r => if str_eqb a name then Some v else xmlGetProp r name
  end.
(** XMLUtil.cpp:14-27 *)
Definition strGetXMLAttr (n : node) (name : str) : str :=
  match xmlGetProp n name with None => [] | Some v => v end.

Definition CATEGORY : str := [99; 97; 116; 101; 103; 111; 114; 121].   (* "category" *)
Definition LEVEL : str := [108; 101; 118; 101; 108].                   (* "level" *)
Definition uint32 : itype := mk_itype false 32.

(** LintelLogXML.cpp:15-28 *)
Definition parseXML (s : log) (n : node) : res (log * list output) :=
  let category := strGetXMLAttr n CATEGORY in
  let level_str := strGetXMLAttr n LEVEL in
  let! level :=
    (if negb (match level_str with [] => true | _ => false end) then
       let! tmp := stringToInteger uint32 level_str 10 in
       let! _ := invariant (tmp <? 255) in
       Ok (tmp mod 2 ^ 8)
     else Ok 1) in
  setDebugLevel s category level.

(** One call of LintelLog or LintelLogXML. *)
Inductive xop := XCall (o : op) | XNode (n : node).
Definition x_step (s : log) (o : xop) : res (log * (answer * list output)) :=
  match o with
  | XCall o => log_step s o
  | XNode n => let! (s, out) := parseXML s n in Ok (s, (Done, out))
  end.
