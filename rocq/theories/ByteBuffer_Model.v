(** Model of include/Lintel/ByteBuffer.hpp. Storage arrays are lists of bytes;
    memory nobody has written is None. Sizes are natural numbers (no allocation
    comes near 2^64); only replace(), which adds two caller-supplied sizes, is
    given the wrap-around. Reading or writing outside an array is UB. A memcpy of
    0 bytes from or to a null pointer is taken as a no-op. boost::shared_ptr is
    a reference from the buffers to storage, unique() counts the buffers that
    refer to it. Debug logging is left out. *)
From Coq Require Import List ZArith Bool.
From Verif Require Import Common ByteBuffer_Spec.
Import ListNotations.

(** ** NoCopyByteBuffer, ByteBuffer.hpp:60-159 *)
(** ByteBuffer.hpp:154-157; [data] is None for a null byte_data. *)
Record rep : Type := { data : option bytes; front : nat; back : nat }.
Definition data_size (r : rep) : nat := match data r with Some d => length d | None => 0 end.
(** ByteBuffer.hpp:62 *)
Definition nc_new : rep := {| data := None; front := 0; back := 0 |}.
(** ByteBuffer.hpp:65-75 and 90-92 *)
Definition nc_empty (r : rep) : bool := front r =? back r.
Definition nc_readAvailable (r : rep) : nat := back r - front r.
Definition nc_writeAvailable (r : rep) : nat := data_size r - back r.
(** ByteBuffer.hpp:85-88; the check is there in debug builds only, without it the
    buffer is unusable: UB. *)
Definition nc_consume (r : rep) (amt : nat) : res rep :=
  if amt <=? nc_readAvailable r then Ok {| data := data r; front := front r + amt; back := back r |} else UB.
(** ByteBuffer.hpp:100-103 *)
Definition nc_extend (r : rep) (amt : nat) : res rep :=
  let! _ := invariant (amt <=? nc_writeAvailable r) in
  Ok {| data := data r; front := front r; back := back r + amt |}.
(** ByteBuffer.hpp:105-108 *)
Definition nc_unextend (r : rep) (amt : nat) : res rep :=
  let! _ := invariant (amt <=? nc_readAvailable r) in
  Ok {| data := data r; front := front r; back := back r - amt |}.
(** Memory accesses through the pointers handed out: [len] bytes at [pos]. *)
Definition load (r : rep) (pos len : nat) : res bytes :=
  match data r with
  | Some d => if pos + len <=? length d then Ok (firstn len (skipn pos d)) else UB
  | None => if len =? 0 then Ok [] else UB
  end.
Definition store (r : rep) (pos : nat) (b : bytes) : res rep :=
  match data r with
  | Some d => if pos + length b <=? length d
              then Ok {| data := Some (firstn pos d ++ b ++ skipn (pos + length b) d); front := front r; back := back r |}
              else UB
  | None => if length b =? 0 then Ok r else UB
  end.
(** ByteBuffer.hpp:133-142 *)
Definition nc_shift (r : rep) : res rep :=
  if nc_empty r then Ok {| data := data r; front := 0; back := 0 |}
  else if 0 <? front r then
    let old_size := nc_readAvailable r in
    let! b := load r (front r) old_size in
    let! r := store r 0 b in
    Ok {| data := data r; front := 0; back := old_size |}
  else Ok r.
(** ByteBuffer.hpp:110-131 *)
Definition nc_resizeBuffer (r : rep) (new_size : nat) : res rep :=
  if (new_size =? data_size r) && (match data r with Some _ => true | None => false end) then nc_shift r
  else
    let new_data := repeat None new_size in
    if negb (nc_empty r) then
      let old_available := nc_readAvailable r in
      let! _ := invariant (old_available <=? new_size) in
      let! b := load r (front r) old_available in
      let! n := store {| data := Some new_data; front := 0; back := 0 |} 0 b in
      Ok {| data := data n; front := 0; back := old_available |}
    else Ok {| data := Some new_data; front := 0; back := 0 |}.
(** ByteBuffer.hpp:144-152 *)
Definition nc_reset (r : rep) : res rep := Ok {| data := data r; front := 0; back := 0 |}.
Definition nc_purge (r : rep) : res rep := Ok {| data := None; front := 0; back := 0 |}.

(** ** The buffers of a program *)
(** [bufs]: for each live ByteBuffer its storage and allow_copy_on_write
    (ByteBuffer.hpp:553-554); [reps]: all storage ever made. *)
Record world : Type := { reps : list rep; bufs : list (option (nat * bool)) }.
Definition initial : world := {| reps := []; bufs := [] |}.
(** The buffer of a handle; using a destroyed one is UB. *)
Definition handle (w : world) (i : nat) : res (nat * bool) :=
  match nth_error (bufs w) i with Some (Some h) => Ok h | _ => UB end.
Definition rep_of (w : world) (i : nat) : res (nat * rep) :=
  let! (id, _) := handle w i in let! r := get (reps w) id in Ok (id, r).
(** shared_ptr::unique *)
Definition refers (id : nat) (h : option (nat * bool)) : bool := match h with Some (id', _) => id =? id' | None => false end.
Definition unique (w : world) (id : nat) : bool := length (filter (refers id) (bufs w)) =? 1.
Definition set_rep (w : world) (id : nat) (r : rep) : world := {| reps := upd (reps w) id r; bufs := bufs w |}.
(** ByteBuffer.hpp:531-539 *)
Definition forceUnique (w : world) (i : nat) : res world :=
  let! (id, cow) := handle w i in
  if negb (unique w id) then
    let! (_, r) := rep_of w i in
    let! n := nc_resizeBuffer nc_new (nc_readAvailable r) in
    let! b := load r (front r) (nc_readAvailable r) in
    let pos := back n in
    let! n := nc_extend n (nc_readAvailable r) in
    let! n := store n pos b in
    Ok {| reps := reps w ++ [n]; bufs := upd (bufs w) i (Some (length (reps w), cow)) |}
  else Ok w.
(** ByteBuffer.hpp:541-551 (max_size_cow_always_allowed is 0). *)
Definition uniqueify (w : world) (i : nat) : res world :=
  let! (id, cow) := handle w i in
  if negb (unique w id) then
    let! (_, r) := rep_of w i in
    let! _ := (if 0 <? data_size r then invariant cow else Ok tt) in
    forceUnique w i
  else Ok w.
(** uniqueify(); then a NoCopyByteBuffer operation on the own storage. *)
Definition mutate (w : world) (i : nat) (f : rep -> res rep) : res world :=
  let! w := uniqueify w i in
  let! (id, r) := rep_of w i in
  let! r := f r in
  Ok (set_rep w id r).
(** ByteBuffer.hpp:301-304 with 94-98, and the caller's memcpy to the pointer. *)
Definition nc_write (b : bytes) (r : rep) : res rep :=
  let pos := back r in
  let! r := nc_extend r (length b) in
  store r pos b.
(** Where append takes its bytes from: the caller's own memory, or the readable
    part of some storage (ByteBuffer.hpp:344-346 passes buf.readStart()). *)
Inductive source : Type := Mem (b : bytes) | Ptr (id pos len : nat).
Definition src_len (s : source) : nat := match s with Mem b => length b | Ptr _ _ n => n end.
Definition readable_ptr (w : world) (j : nat) : res source :=
  let! (id, r) := rep_of w j in Ok (Ptr id (front r) (nc_readAvailable r)).
(** ByteBuffer.hpp:359-366. A source pointer into the storage that resizeBuffer
    frees dangles. (Source and destination of the memcpy do not overlap.) *)
Definition append (w : world) (i : nat) (src : source) : res world :=
  let! w := uniqueify w i in
  let! (id, r) := rep_of w i in
  let size := src_len src in
  let! w := (if nc_writeAvailable r <? size then
               let needed := size - nc_writeAvailable r in
               let! _ := match src with Ptr sid _ _ => if sid =? id then UB else Ok tt | Mem _ => Ok tt end in
               mutate w i (fun r => nc_resizeBuffer r (data_size r + needed))
             else Ok w) in
  let! b := match src with Mem b => Ok b | Ptr sid pos n => let! s := get (reps w) sid in load s pos n end in
  mutate w i (nc_write b).

(** istream::read of at most n bytes: what is delivered, what is left, whether
    the stream is still good (end of file was not hit). A stream that goes bad is
    not modelled. *)
Definition stream_read (s : bytes) (n : nat) : bytes * bytes * bool := (firstn n s, skipn n s, n <=? length s).

(** ByteBuffer.hpp:423-429 *)
Fixpoint from_loop (fuel : nat) (w : world) (i amount : nat) (s : bytes) (good : bool) (bytes_read : nat) : res (world * nat * bytes) :=
  if good && (bytes_read <? amount) then
    match fuel with
    | O => Fuel
    | S f =>
      let! w := uniqueify w i in
      let! (id, r) := rep_of w i in
      let '(got, s, good) := stream_read s (amount - bytes_read) in
      let! r := store r (back r) got in
      let w := set_rep w id r in
      let! w := mutate w i (fun r => nc_extend r (length got)) in
      from_loop f w i amount s good (bytes_read + length got)
    end
  else Ok (w, bytes_read, s).
(** ByteBuffer.hpp:413-436 *)
Definition appendFromStream (w : world) (i amount : nat) (s : bytes) : res (world * nat * bytes) :=
  let! (_, r) := rep_of w i in
  let! w := (if nc_writeAvailable r <? amount
             then mutate w i (fun _r => nc_resizeBuffer _r (data_size r - nc_writeAvailable r + amount)) else Ok w) in
  let! (_, r) := rep_of w i in
  let! _ := invariant (amount <=? nc_writeAvailable r) in
  from_loop 2 w i amount s true 0.
(** ByteBuffer.hpp:386-397. The arguments of sin.read, writeStartAs(0) and
    writeAvailable(), may be evaluated in either order. *)
Fixpoint entire_loop (fuel : nat) (ltr : bool) (w : world) (i max : nat) (s : bytes) (good : bool) (bytes_read : nat) : res (world * nat * bytes) :=
  if good then
    match fuel with
    | O => Fuel
    | S f =>
      let! (_, r0) := rep_of w i in
      if 0 <? nc_writeAvailable r0 then
        let! w := uniqueify w i in
        let! (id, r) := rep_of w i in
        let want := if ltr then nc_writeAvailable r else nc_writeAvailable r0 in
        let '(got, s, good) := stream_read s want in
        let! r := store r (back r) got in
        let w := set_rep w id r in
        let! w := mutate w i (fun r => nc_extend r (length got)) in
        entire_loop f ltr w i max s good (bytes_read + length got)
      else if data_size r0 <? max then
        let! w := mutate w i (fun r => nc_resizeBuffer r (min (data_size r0 * 2) max)) in
        entire_loop f ltr w i max s good bytes_read
      else
        let! _ := invariant (data_size r0 =? max) in
        Ok (w, bytes_read, s)
    end
  else Ok (w, bytes_read, s).
(** ByteBuffer.hpp:376-404. [fuel] bounds the loop: more rounds than any run
    needs that ends. *)
Definition entire_fuel (max : nat) (s : bytes) : nat := 2 * (length s + max) + 4.
Definition appendEntireStream (w : world) (ltr : bool) (i max_size : nat) (s : bytes) : res (world * nat * bytes) :=
  let! (_, r) := rep_of w i in
  let! w := (if data_size r =? 0 then mutate w i (fun r => nc_resizeBuffer r (min 1024 max_size)) else Ok w) in
  let! (_, r) := rep_of w i in
  let max := max (data_size r) max_size in
  entire_loop (entire_fuel max s) ltr w i max s true 0.

(** Readable bytes of storage, ByteBuffer.hpp:507-509. *)
Definition nc_readable (r : rep) : res bytes := load r (front r) (nc_readAvailable r).

(** memcmp(...) == 0; comparing bytes nobody wrote is UB. *)
Fixpoint memequal (a b : bytes) : res bool :=
  match a, b with
  | [], [] => Ok true
  | Some x :: a', Some y :: b' => let! e := memequal a' b' in Ok ((x =? y)%Z && e)
  | _, _ => UB
  end.

Definition new_buf (w : world) (cow : bool) : world :=
  {| reps := reps w ++ [nc_new]; bufs := bufs w ++ [Some (length (reps w), cow)] |}.
Definition done (w : res world) : res (world * obs) := let! w := w in Ok (w, Done).

(** One call; ByteBuffer.hpp lines are given per case. *)
Definition step (w : world) (o : op) : res (world * obs) :=
  match o with
  | New cow => Ok (new_buf w cow, Handle (length (bufs w)))                       (* 196-198 *)
  | NewFrom b cow =>                                                             (* 204-207 *)
      let i := length (bufs w) in
      let! w := append (new_buf w cow) i (Mem b) in Ok (w, Handle i)
  | Copy i =>                                                                    (* 224-226 *)
      let! h := handle w i in
      Ok ({| reps := reps w; bufs := bufs w ++ [Some h] |}, Handle (length (bufs w)))
  | Set_ i j =>                                                                  (* 229-233 *)
      let! _ := handle w i in let! h := handle w j in
      Ok ({| reps := reps w; bufs := upd (bufs w) i (Some h) |}, Done)
  | Destroy i => let! _ := handle w i in Ok ({| reps := reps w; bufs := upd (bufs w) i None |}, Done)
  | Consume i n => done (mutate w i (fun r => nc_consume r n))                    (* 279-282 *)
  | Write i b => done (mutate w i (nc_write b))                                   (* 301-304 *)
  | WriteExtend i b n =>                                                         (* 301-304, 323-326 *)
      let! w := mutate w i (fun r => let! r := nc_extend r 0 in store r (back r) b) in
      done (mutate w i (fun r => nc_extend r n))
  | Extend i n => done (mutate w i (fun r => nc_extend r n))                      (* 323-326 *)
  | Unextend i n => done (mutate w i (fun r => nc_unextend r n))                  (* 330-333 *)
  | Poke i off b => done (mutate w i (fun r => store r (front r + off) b))        (* 271-274 *)
  | Append i b => done (append w i (Mem b))                                       (* 350-352, 359-366 *)
  | AppendBuf i j => let! p := readable_ptr w j in done (append w i p)            (* 344-346 *)
  | Replace i off b =>                                                           (* 443-446 *)
      let! (_, r) := rep_of w i in
      let! _ := invariant ((off + Z.of_nat (length b)) mod 2 ^ 64 <=? Z.of_nat (nc_readAvailable r))%Z in
      done (mutate w i (fun r =>
        if (off <? 0)%Z || (Z.of_nat (data_size r) <? Z.of_nat (front r) + off + Z.of_nat (length b))%Z then UB
        else store r (front r + Z.to_nat off) b))
  | Resize i n => done (mutate w i (fun r => nc_resizeBuffer r n))                (* 456-459 *)
  | Shift i => done (mutate w i nc_shift)                                         (* 462-465 *)
  | Reset i => done (mutate w i nc_reset)                                         (* 468-471 *)
  | Purge i => done (mutate w i nc_purge)                                         (* 475-478 *)
  | Detach i =>                                                                  (* 481-483 *)
      let! (_, cow) := handle w i in
      Ok ({| reps := reps w ++ [nc_new]; bufs := upd (bufs w) i (Some (length (reps w), cow)) |}, Done)
  | Assign i b => let! w := mutate w i nc_reset in done (append w i (Mem b))      (* 494-504 *)
  | AssignBuf i j =>                                                             (* 487-490 *)
      let! w := mutate w i nc_reset in
      let! p := readable_ptr w j in done (append w i p)
  | ForceUnique i => done (forceUnique w i)                                       (* 531-539 *)
  | AppendFrom i amount s => let! (w, n, rest) := appendFromStream w i amount s in Ok (w, Stream n rest)
  | AppendEntire ltr i max s => let! (w, n, rest) := appendEntireStream w ltr i max s in Ok (w, Stream n rest)
  | ReadAvailable i => let! (_, r) := rep_of w i in Ok (w, Count (nc_readAvailable r))   (* 248-250 *)
  | WriteAvailable i => let! (_, r) := rep_of w i in Ok (w, Count (nc_writeAvailable r)) (* 284-286 *)
  | BufferSize i => let! (_, r) := rep_of w i in Ok (w, Count (data_size r))             (* 243-245 *)
  | Empty i => let! (_, r) := rep_of w i in Ok (w, Truth (nc_empty r))                   (* 236-238 *)
  | AsString i => let! (_, r) := rep_of w i in let! b := nc_readable r in Ok (w, Bytes b) (* 507-509 *)
  | Equal i j =>                                                                        (* 513-521 *)
      let! (id, r) := rep_of w i in
      let! (jd, q) := rep_of w j in
      if negb (nc_readAvailable r =? nc_readAvailable q) then Ok (w, Truth false)
      else if id =? jd then Ok (w, Truth true)
      else
        let! a := nc_readable r in let! b := nc_readable q in
        let! e := memequal a b in Ok (w, Truth e)
  end.
