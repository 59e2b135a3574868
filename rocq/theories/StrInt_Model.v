(** Model of stringToInteger (include/Lintel/StringUtil.hpp:111-141) and of
    PThreadMisc::getNCpus (src/PThread.cpp:65-127, on Linux). The conversions themselves are
    library code: boost::lexical_cast and, for bases 16 and 8, the num_get of libstdc++ in
    the "C" locale. *)
From Coq Require Import List ZArith Bool.
From Verif Require Import Common StringUtil_Model.
Import ListNotations.
Local Open Scope Z_scope.

(** An integral type: whether it is signed, and its bits. *)
Record itype := mk_itype { is_signed : bool; bits : Z }.
Definition tmin (t : itype) : Z := if is_signed t then - 2 ^ (bits t - 1) else 0.
Definition tmax (t : itype) : Z := if is_signed t then 2 ^ (bits t - 1) - 1 else 2 ^ bits t - 1.

Definition digit_of (base c : Z) : option Z :=
  let d := if (48 <=? c) && (c <=? 57) then c - 48
           else if (97 <=? c) && (c <=? 102) then c - 87
           else if (65 <=? c) && (c <=? 70) then c - 55 else base in
  if d <? base then Some d else None.

(** The digits of lexical_cast: all the rest of the text, the value at most [limit]. *)
Fixpoint cast_digits (limit : Z) (s : list Z) (acc : Z) : res Z :=
  match s with
  | [] => Ok acc
  | c :: r => match digit_of 10 c with
              | Some d => let v := 10 * acc + d in if v <=? limit then cast_digits limit r v else Abort
              | None => Abort
              end
  end.
Definition cast_number (limit : Z) (s : list Z) : res Z := match s with [] => Abort | _ => cast_digits limit s 0 end.
(** A minus sign negates, modulo 2^bits when the type is unsigned. *)
Definition cast_minus (t : itype) (r : list Z) : res Z :=
  if is_signed t then let! v := cast_number (2 ^ (bits t - 1)) r in Ok (- v)
  else let! v := cast_number (tmax t) r in Ok (- v mod 2 ^ bits t).
(** boost::lexical_cast<T>(str). For the character types (8 bits) it is the character. *)
Definition lexical_cast (t : itype) (s : list Z) : res Z :=
  if bits t =? 8 then
    match s with [c] => Ok (if is_signed t && (128 <=? c) then c - 256 else c) | _ => Abort end
  else match s with
       | [] => Abort
       | c :: r => if c =? 45 then cast_minus t r else if c =? 43 then cast_number (tmax t) r else cast_number (tmax t) s
       end.

(** iss >> std::hex >> ret and iss >> std::oct >> ret: white space is skipped, a sign and
    (hex) 0x may precede the digits, and what follows the digits is left in the stream. *)
Fixpoint skip_space (s : list Z) : list Z :=
  match s with c :: r => if isspace c then skip_space r else s | [] => [] end.
Definition skip_0x (base : Z) (s : list Z) : list Z :=
  match s with c :: x :: r => if (base =? 16) && (c =? 48) && ((x =? 120) || (x =? 88)) then r else s | _ => s end.
Fixpoint stream_digits (base : Z) (s : list Z) (acc : Z) : Z :=
  match s with
  | c :: r => match digit_of base c with Some d => stream_digits base r (base * acc + d) | None => acc end
  | [] => acc
  end.
Definition stream_number (base limit : Z) (s : list Z) : res Z :=
  let s := skip_0x base s in
  match s with
  | c :: _ => match digit_of base c with
              | Some _ => let v := stream_digits base s 0 in if v <=? limit then Ok v else Abort
              | None => Abort
              end
  | [] => Abort
  end.
Definition read_stream (t : itype) (base : Z) (s : list Z) : res Z :=
  let s := skip_space s in
  if bits t =? 8 then
    match s with c :: _ => Ok (if is_signed t && (128 <=? c) then c - 256 else c) | [] => Abort end
  else match s with
       | [] => Abort
       | c :: r => if c =? 45 then
                     if is_signed t then let! v := stream_number base (2 ^ (bits t - 1)) r in Ok (- v)
                     else let! v := stream_number base (tmax t) r in Ok (- v mod 2 ^ bits t)
                   else if c =? 43 then stream_number base (tmax t) r else stream_number base (tmax t) s
       end.

(** StringUtil.hpp:112-141 *)
Definition stringToInteger (t : itype) (s : list Z) (base : Z) : res Z :=
  if base =? 10 then lexical_cast t s
  else if (base =? 16) || (base =? 8) then read_stream t base s
  else Abort.

(** PThread.cpp:84-89: getline until the end of the file. [cur] is the line read so far, in
    reverse; the last line ends with the file. *)
Fixpoint count_lines (file cur processor : list Z) (n : Z) : Z :=
  let bump l := if prefixequal l processor then (n + 1) mod 2 ^ 32 else n in
  match file with
  | [] => bump (rev cur)
  | c :: r => if c =? 10 then count_lines r [] processor (bump (rev cur)) else count_lines r (c :: cur) processor n
  end.
(** "processor\t: " *)
Definition processor : list Z := [112; 114; 111; 99; 101; 115; 115; 111; 114; 9; 58; 32].
(** PThread.cpp:65-127 with cache_ncpus as state; [env] is getenv("NUMBER_OF_PROCESSORS"),
    [file] the contents of /proc/cpuinfo. The result is converted to int. *)
Definition uint32_type : itype := mk_itype false 32.
Definition getNCpus (cache : Z) (env : option (list Z)) (file : list Z) : res (Z * Z) :=
  let! cache :=
    (if cache =? 0 then
       let! cache := match env with Some s => stringToInteger uint32_type s 10 | None => Ok (count_lines file [] processor cache) end in
       let! _ := invariant (0 <? cache) in Ok cache
     else Ok cache) in
  let! _ := invariant (0 <? cache) in
  Ok (s32 cache, cache).
