(** Model of small utilities: iteratorRangeEqual (include/Lintel/STLUtility.hpp), stringPrintF
    (src/AssertException.cpp), modifyTimeNanoSec (include/Lintel/FileUtil.hpp) and
    ProcessStatistics (src/unstable/ProcessStatistics.cpp). *)
From Coq Require Import List Arith ZArith Bool.
From Verif Require Import Common StringUtil_Model StrInt_Model.
Import ListNotations.
Open Scope Z_scope.

(** ** iteratorRangeEqual, STLUtility.hpp:17-31 *)
Section R.
Context {A B : Type}.
(** operator!= of the values *)
Variable differ : A -> B -> bool.
(** An iterator is an index; dereferencing one outside of the container is undefined. The
    loop ends after at most [fuel] rounds. *)
Fixpoint range_loop (fuel : nat) (m1 : list A) (m2 : list B) (first1 last1 first2 last2 : nat) : res bool :=
  if (first1 =? last1)%nat then Ok (first2 =? last2)%nat
  else match fuel with
       | O => Fuel
       | S fuel =>
         if (first2 =? last2)%nat then Ok false
         else
           let! x := get m1 first1 in
           let! y := get m2 first2 in
           if differ x y then Ok false
           else range_loop fuel m1 m2 (S first1) last1 (S first2) last2
       end.
Definition iteratorRangeEqual (m1 : list A) (m2 : list B) (first1 last1 first2 last2 : nat) : res bool :=
  range_loop (length m1) m1 m2 first1 last1 first2 last2.
End R.

(** ** stringPrintF, AssertException.cpp:23-39 *)
(** vsnprintf(buf, size, format, ap) where the format and the arguments make [text]: None for
    an error (a text longer than INT_MAX, or one that cannot be encoded). As the C standard says:
    at most size - 1 characters and a NUL are written, the number of characters of the whole
    text is returned. *)
Definition vsnprintf (buf : list Z) (text : option (list Z)) : list Z * Z :=
  match text with
  | None => (buf, -1)
  | Some t =>
    let out := firstn (length buf - 1) t ++ [0] in
    (firstn (length buf) (out ++ skipn (length out) buf), Z.of_nat (length t))
  end.
(** std::string::resize(n) fills with NUL; more than max_size() throws length_error. *)
Inductive outcome : Type := Returns (s : list Z) | ThrowsLengthError.
Definition resize (s : list Z) (n : Z) : outcome :=
  let n := n mod 2 ^ 64 in
  if 2 ^ 63 <=? n then ThrowsLengthError
  else Returns (firstn (Z.to_nat n) s ++ repeat 0 (Z.to_nat n - length s)).
Definition stringPrintF (text : option (list Z)) : outcome :=
  let ret := repeat 0 1024 in
  let '(ret, actual_size) := vsnprintf ret text in
  resize ret actual_size.

(** ** modifyTimeNanoSec, FileUtil.hpp:26-38 (Linux) *)
(** signed 64 bit arithmetic: overflow is undefined *)
Definition int64 (z : Z) : res Z := if (- 2 ^ 63 <=? z) && (z <? 2 ^ 63) then Ok z else UB.
Definition modifyTimeNanoSec (sec nsec : Z) : res Z :=
  let! t := int64 sec in
  let! t := int64 (t * 1000) in
  let! t := int64 (t * 1000) in
  let! t := int64 (t * 1000) in
  int64 (t + nsec).
(** modifyTimeNanoSec(filename), FileUtil.hpp:43-49; None: stat failed *)
Definition modifyTimeNanoSec_file (st : option (Z * Z)) : res Z :=
  match st with
  | None => Abort
  | Some (sec, nsec) => modifyTimeNanoSec sec nsec
  end.

(** ** ProcessStatistics *)
(** ProcessStatistics.hpp:16-20; any other value *)
Inductive stattype : Type := AddressSize | ResidentSize | OtherType.
(** One %zu of fscanf: white space, a sign, digits. strtoul: too large a value is
    2^64 - 1, a minus sign negates modulo 2^64. The result is the value and the rest. *)
Fixpoint scan_digits (s : list Z) (acc : Z) : Z * list Z :=
  match s with
  | c :: r => match digit_of 10 c with Some d => scan_digits r (10 * acc + d) | None => (acc, s) end
  | [] => (acc, [])
  end.
Definition scan_unsigned (s : list Z) : option (Z * list Z) :=
  match s with
  | c :: _ => match digit_of 10 c with
              | Some _ => let '(v, r) := scan_digits s 0 in Some (Z.min v (2 ^ 64 - 1), r)
              | None => None
              end
  | [] => None
  end.
Definition scan_zu (s : list Z) : option (Z * list Z) :=
  match skip_space s with
  | c :: r => if c =? 45 then match scan_unsigned r with Some (v, r) => Some (- v mod 2 ^ 64, r) | None => None end
              else if c =? 43 then scan_unsigned r
              else scan_unsigned (c :: r)
  | [] => None
  end.
(** The seven numbers of the format, ProcessStatistics.cpp:65-67; None if fewer are there. *)
Fixpoint scan_n (n : nat) (s : list Z) : option (list Z) :=
  match n with
  | O => Some []
  | S n => match scan_zu s with
           | Some (v, r) => match scan_n n r with Some vs => Some (v :: vs) | None => None end
           | None => None
           end
  end.
(** ProcessStatisticsRes with the fields that are used, ProcessStatistics.hpp:61-71 *)
Record pstat : Type := mk_pstat { page_size : Z; size : Z; resident : Z }.
(** invalidate, ProcessStatistics.cpp:60-69, with the text that is in the file and what
    getpagesize() answers; None: reading fails *)
Definition invalidate (page : Z) (file : option (list Z)) : res pstat :=
  match file with
  | None => Abort
  | Some text => match scan_n 7 text with
                 | Some (sz :: rs :: _) => Ok (mk_pstat page sz rs)
                 | _ => Abort
                 end
  end.
(** getCached, ProcessStatistics.cpp:33-42 *)
Definition getCached (p : pstat) (which : stattype) : res Z :=
  match which with
  | AddressSize => Ok (size p * page_size p mod 2 ^ 64)
  | ResidentSize => Ok (resident p * page_size p mod 2 ^ 64)
  | OtherType => Abort
  end.
(** supported, ProcessStatistics.cpp:49-57 *)
Definition supported (which : stattype) : bool := match which with OtherType => false | _ => true end.

Inductive pop : Type := PGet (w : stattype) | PGetCached (w : stattype) | PInvalidate | PSupported (w : stattype).
Inductive pans : Type := PNum (z : Z) | PUnit | PBool (b : bool).
(** A call, with the text in the file at the time of the call *)
Definition pstep (page : Z) (p : pstat) (o : pop * option (list Z)) : res (pstat * pans) :=
  let '(o, file) := o in
  match o with
  | PGet w => let! p := invalidate page file in let! v := getCached p w in Ok (p, PNum v)   (* ProcessStatistics.cpp:44-47 *)
  | PGetCached w => let! v := getCached p w in Ok (p, PNum v)
  | PInvalidate => let! p := invalidate page file in Ok (p, PUnit)
  | PSupported w => Ok (p, PBool (supported w))
  end.
(** The constructor, ProcessStatistics.cpp:16-27, and the calls after it *)
Definition prun (page : Z) (file : option (list Z)) (l : list (pop * option (list Z))) : list (res pans) :=
  match invalidate page file with
  | Ok p => run_ops (pstep page) p l
  | Abort => [Abort]
  | UB => [UB]
  | Fuel => [Fuel]
  end.
(** getOnce, ProcessStatistics.hpp:52-55 *)
Definition getOnce (page : Z) (file1 file2 : option (list Z)) (w : stattype) : list (res pans) := prun page file1 [(PGet w, file2)].
