(** Model of src/StringUtil.cpp. Bytes are integers 0..255. std::string::find,
    substr, insert and boost::format's %d are library primitives, modelled by
    their documented meaning. isprint/isascii/isxdigit are those of the C
    locale. Capacity reservations are not modelled. Sizes held in int or
    unsigned are converted as the code does. *)
From Coq Require Import List ZArith Bool.
From Verif Require Import Common StringUtil_Spec.
Import ListNotations.
Local Open Scope Z_scope.

Definition u32 (z : Z) : Z := z mod 2 ^ 32.
Definition s32 (z : Z) : Z := let m := z mod 2 ^ 32 in if m <? 2 ^ 31 then m else m - 2 ^ 32.
Notation len s := (Z.of_nat (length s)).

(** ** std::string primitives *)
Definition npos : Z := 2 ^ 64 - 1.
Fixpoint prefixb (pat s : str) : bool :=
  match pat, s with
  | [], _ => true
  | p :: pat', c :: s' => (p =? c) && prefixb pat' s'
  | _ :: _, [] => false
  end.
Fixpoint first_match (s pat : str) : option nat :=
  if prefixb pat s then Some O
  else match s with [] => None | _ :: r => option_map S (first_match r pat) end.
(** s.find(pat, start) *)
Definition string_find (s pat : str) (start : Z) : Z :=
  if len s <? start then npos
  else match first_match (skipn (Z.to_nat start) s) pat with Some k => start + Z.of_nat k | None => npos end.
(** s.substr(pos, n): throws when pos is beyond the end. *)
Definition substr (s : str) (pos n : Z) : res str :=
  if len s <? pos then Abort else Ok (firstn (Z.to_nat n) (skipn (Z.to_nat pos) s)).
(** s.insert(pos, t) *)
Definition insert (s : str) (pos : Z) (t : str) : str := firstn (Z.to_nat pos) s ++ t ++ skipn (Z.to_nat pos) s.

(** ** split and join *)
(** StringUtil.cpp:46-57; startbit and endbit are ints. *)
Fixpoint split_loop (fuel : nat) (instr splitstr : str) (startbit : Z) (bits : list str) : res (list str) :=
  match fuel with
  | O => Fuel
  | S f =>
    let endbit := s32 (string_find instr splitstr startbit) in
    if endbit <? 0 then
      let! p := substr instr startbit (len instr - startbit) in Ok (bits ++ [p])
    else
      let! _ := invariant (startbit <=? endbit) in
      let! p := substr instr startbit (endbit - startbit) in
      split_loop f instr splitstr (s32 (endbit + len splitstr)) (bits ++ [p])
  end.
(** StringUtil.cpp:43-58; StringUtil.hpp:31-36 starts from an empty vector. *)
Definition split (instr splitstr : str) : res (list str) :=
  let! _ := invariant (0 <? len splitstr) in
  split_loop (S (length instr)) instr splitstr 0 [].

(** StringUtil.cpp:73-78, [first] tells whether i == bits.begin(). *)
Fixpoint join_loop (joinstr : str) (bits : list str) (first : bool) (ret : str) : str :=
  match bits with
  | [] => ret
  | b :: r => join_loop joinstr r false ((if first then ret else ret ++ joinstr) ++ b)
  end.
(** StringUtil.cpp:60-80 *)
Definition join (joinstr : str) (bits : list str) : str := join_loop joinstr bits true [].

(** ** mysqlEscape *)
(** StringUtil.cpp:86-113: the non-zero entries of mysql_escape_table. *)
Definition mysql_escape_table (c : Z) : Z :=
  match c with
  | 0 => 48 | 8 => 98 | 9 => 116 | 10 => 110 | 13 => 114 | 26 => 90 | 34 => 34 | 39 => 39 | 92 => 92
  | _ => 0
  end.
(** StringUtil.cpp:126-133 *)
Fixpoint mysql_loop (data : str) (ret : str) : str :=
  match data with
  | [] => ret
  | c :: r =>
    if negb (mysql_escape_table c =? 0) then mysql_loop r ((ret ++ [92]) ++ [mysql_escape_table c])
    else mysql_loop r (ret ++ [c])
  end.
(** StringUtil.cpp:115-135; datasize is unsigned. *)
Definition mysqlEscape (data : str) : str := mysql_loop (firstn (Z.to_nat (u32 (len data))) data) [].

(** ** Hexadecimal *)
(** StringUtil.cpp:142 *)
Definition hextable (i : Z) : Z := nth (Z.to_nat i) [48;49;50;51;52;53;54;55;56;57;97;98;99;100;101;102] 0.
(** StringUtil.cpp:148-152 *)
Fixpoint hex_loop (data : str) (ret : str) : str :=
  match data with
  | [] => ret
  | c :: r => hex_loop r ((ret ++ [hextable (Z.land (Z.shiftr c 4) 15)]) ++ [hextable (Z.land c 15)])
  end.
(** StringUtil.cpp:144-154 *)
Definition hexstring (data : str) : str := hex_loop (firstn (Z.to_nat (u32 (len data))) data) [].

Definition isprint (c : Z) : bool := (32 <=? c) && (c <=? 126).
Definition isascii (c : Z) : bool := c <? 128.

(** StringUtil.cpp:167-176; the void* overload at 156-165 tests isprint only,
    which is the same in the C locale. *)
Fixpoint all_printable (s : str) : bool :=
  match s with [] => true | c :: r => if isprint c && isascii c then all_printable r else false end.
Definition maybehexstring (a : str) : str := if all_printable a then a else hexstring a.

(** StringUtil.cpp:250-259; char is signed, so bytes above 127 fail all tests. *)
Definition unpackhexchar (v : Z) : res Z :=
  if (48 <=? v) && (v <=? 57) then Ok (v - 48)
  else if (97 <=? v) && (v <=? 102) then Ok (10 + v - 97)
  else if (65 <=? v) && (v <=? 70) then Ok (10 + v - 65)
  else Abort.
(** StringUtil.cpp:261-265 *)
Definition unpackhex (v0 v1 : Z) : res Z :=
  let! a := unpackhexchar v0 in
  let! b := unpackhexchar v1 in
  Ok (Z.lor (Z.shiftl a 4) b mod 256).
(** StringUtil.cpp:272-274: the pairs of characters in order. *)
Fixpoint hex2raw_loop (n : nat) (ch : str) : res str :=
  match n with
  | O => Ok []
  | S n' => match ch with
            | a :: b :: r => let! v := unpackhex a b in let! t := hex2raw_loop n' r in Ok (v :: t)
            | _ => UB
            end
  end.
(** StringUtil.cpp:267-280 *)
Definition hex2raw (s : str) : res str :=
  let n := u32 (len s) in
  let! _ := invariant (n mod 2 =? 0) in
  hex2raw_loop (Z.to_nat (n / 2)) s.
(** StringUtil.cpp:282-292 *)
Definition isxdigit (c : Z) : bool := ((48 <=? c) && (c <=? 57)) || ((97 <=? c) && (c <=? 102)) || ((65 <=? c) && (c <=? 70)).
Fixpoint all_xdigit (s : str) : bool :=
  match s with [] => true | c :: r => if isxdigit c then all_xdigit r else false end.
Definition ishexstring (s : str) : bool := if negb (len s mod 2 =? 0) then false else all_xdigit s.
(** StringUtil.cpp:294-296 *)
Definition maybehex2raw (s : str) : res str := if ishexstring s then hex2raw s else Ok s.

(** ** escapeUnprintable *)
(** StringUtil.cpp:179-181 *)
Definition eu_escape (c : Z) : bool := negb (isprint c && isascii c) || (c =? 37).
(** StringUtil.cpp:206-207: the run copied verbatim, and what follows. *)
Fixpoint plain_run (s : str) : str * str :=
  match s with
  | [] => ([], [])
  | c :: r => if eu_escape c then ([], s) else let '(a, b) := plain_run r in (c :: a, b)
  end.
(** StringUtil.cpp:205-221 *)
Fixpoint escape_loop (fuel : nat) (s : str) (ret : str) : res str :=
  match s with
  | [] => Ok ret
  | _ => match fuel with
         | O => Fuel
         | S f =>
           let '(run, rest) := plain_run s in
           let ret := ret ++ run in
           match rest with
           | [] => escape_loop f [] ret
           | c :: r =>
             let ret := ret ++ [37] in
             let ret := if c =? 37 then ret ++ [37] else (ret ++ [hextable (Z.land (Z.shiftr c 4) 15)]) ++ [hextable (Z.land c 15)] in
             escape_loop f r ret
           end
         end
  end.
Definition escapeUnprintable (a : str) : res str := escape_loop (length a) a [].

(** ** toCSVform *)
(** StringUtil.cpp:240-243: pos is an int. *)
Fixpoint csv_loop (fuel : nat) (ret : str) (pos : Z) : res str :=
  match fuel with
  | O => Fuel
  | S f =>
    let pos := s32 (string_find ret [34] pos) in
    if 0 <=? pos then csv_loop f (insert ret pos [34]) (pos + 2) else Ok ret
  end.
(** StringUtil.cpp:233-248 *)
Definition toCSVform (s : str) : res str :=
  if 0 <=? s32 (string_find s [44] 0) then
    let ret := insert s 0 [34] in
    let! ret := csv_loop (S (length s)) ret 1 in
    Ok (ret ++ [34])
  else Ok s.

(** ** Prefix and suffix tests *)
(** StringUtil.cpp:298-306; compare(...) == 0 is equality of the two ranges. *)
Fixpoint str_eqb (a b : str) : bool :=
  match a, b with
  | [], [] => true
  | x :: a', y :: b' => (x =? y) && str_eqb a' b'
  | _, _ => false
  end.
Definition prefixequal (s prefix : str) : bool :=
  (len prefix <=? len s) && str_eqb (firstn (length prefix) s) prefix.
Definition suffixequal (s suffix : str) : bool :=
  if len s <? len suffix then false
  else str_eqb (firstn (length suffix) (skipn (length s - length suffix) s)) suffix.

(** ** IPv4 *)
(** %d of an octet (0..255). *)
Definition print_octet (o : Z) : str :=
  if o <? 10 then [48 + o] else if o <? 100 then [48 + o / 10; 48 + o mod 10] else [48 + o / 100; 48 + o / 10 mod 10; 48 + o mod 10].
(** StringUtil.cpp:308-314 *)
Definition ipv4tostring (val : Z) : str :=
  print_octet (Z.land (Z.shiftr val 24) 255) ++ [46] ++ print_octet (Z.land (Z.shiftr val 16) 255) ++ [46]
  ++ print_octet (Z.land (Z.shiftr val 8) 255) ++ [46] ++ print_octet (Z.land (Z.shiftr val 0) 255).

(** The C library's strtoul(s, &end, 0) on text starting with a digit: value and
    remaining text (range errors show up as values above 2^32 - 1). *)
Definition digit_in (base c : Z) : option Z :=
  let v := if (48 <=? c) && (c <=? 57) then c - 48 else if (97 <=? c) && (c <=? 102) then c - 87
           else if (65 <=? c) && (c <=? 70) then c - 55 else 99 in
  if v <? base then Some v else None.
Fixpoint digits (base : Z) (s : str) (acc : Z) : Z * str :=
  match s with
  | [] => (acc, [])
  | c :: r => match digit_in base c with Some v => digits base r (acc * base + v) | None => (acc, s) end
  end.
Definition strtoul0 (s : str) : Z * str :=
  match s with
  | 48 :: (x :: (y :: _) as r) =>
    if ((x =? 120) || (x =? 88)) && (match digit_in 16 y with Some _ => true | None => false end) then digits 16 (tl r) 0 else digits 8 s 0
  | 48 :: _ => digits 8 s 0
  | _ => digits 10 s 0
  end.
Definition isspace (c : Z) : bool := (c =? 32) || ((9 <=? c) && (c <=? 13)).
(** inet_addr(text) in host order: [bytes] are the octets already read; None
    where inet_addr reports failure. *)
Fixpoint inet_loop (fuel : nat) (s : str) (bytes : list Z) : option Z :=
  match fuel, s with
  | S f, c :: _ =>
    if negb ((48 <=? c) && (c <=? 57)) then None else
    let '(val, rest) := strtoul0 s in
    if 4294967295 <? val then None else
    match rest with
    | 46 :: r => if (2 <? Z.of_nat (length bytes)) || (255 <? val) then None else inet_loop f r (bytes ++ [val])
    | _ =>
      if match rest with [] => true | d :: _ => isspace d || (d =? 0) end then
        let k := Z.of_nat (length bytes) in
        if 2 ^ (32 - 8 * k) - 1 <? val then None
        else Some (fold_left (fun a b => a * 256 + b) bytes 0 * 2 ^ (32 - 8 * k) + val)
      else None
    end
  | _, _ => None
  end.
Definition inet_addr (s : str) : option Z := inet_loop (S (length s)) s [].
(** StringUtil.cpp:319-325: failure and the address 255.255.255.255 are both -1. *)
Definition stringtoipv4 (s : str) : res Z :=
  let addr := match inet_addr s with Some a => a | None => 4294967295 end in
  let! _ := invariant (negb (addr =? 4294967295)) in
  Ok addr.
