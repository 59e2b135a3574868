(** Specification of ByteBuffer: every buffer is an independent string of bytes. *)
From Coq Require Import List ZArith Bool.
From Verif Require Import Common.
Import ListNotations.

(** A byte of storage; None is a byte nobody has written. *)
Notation cell := (option Z).
Notation bytes := (list cell).

(** What a client can do. Buffers are numbered in order of creation. *)
Inductive op : Type :=
| New (cow : bool)                              (** ByteBuffer(cow) *)
| NewFrom (b : bytes) (cow : bool)              (** ByteBuffer(string, cow) *)
| Copy (i : nat)                                (** copy constructor *)
| Set_ (i j : nat)                              (** b_i = b_j *)
| Destroy (i : nat)
| Consume (i n : nat)
| Write (i : nat) (b : bytes)                   (** memcpy(b_i.writeStart(n), b, n) *)
| WriteExtend (i : nat) (b : bytes) (n : nat)   (** write b at writeStart(0), then extend(n) *)
| Extend (i n : nat)
| Unextend (i n : nat)
| Poke (i off : nat) (b : bytes)                (** write b at writeableReadStart() + off *)
| Append (i : nat) (b : bytes)
| AppendBuf (i j : nat)                         (** b_i.append(b_j) *)
| Replace (i : nat) (off : Z) (b : bytes)
| Resize (i n : nat)
| Shift (i : nat)
| Reset (i : nat)
| Purge (i : nat)
| Detach (i : nat)
| Assign (i : nat) (b : bytes)
| AssignBuf (i j : nat)                         (** b_i.assign(b_j) *)
| ForceUnique (i : nat)
| AppendFrom (i amount : nat) (stream : bytes)            (** appendFromStream *)
| AppendEntire (ltr : bool) (i max : nat) (stream : bytes) (** appendEntireStream; [ltr]: the compiler evaluates arguments left to right *)
| ReadAvailable (i : nat)
| WriteAvailable (i : nat)
| BufferSize (i : nat)
| Empty (i : nat)
| AsString (i : nat)
| Equal (i j : nat).

Inductive obs : Type :=
| Done
| Handle (i : nat)
| Count (n : nat)
| Truth (b : bool)
| Bytes (b : bytes)
| Stream (count : nat) (rest : bytes). (** bytes read, and what is left in the stream *)

(** [over l off b]: [l] with [b] written from position [off], as far as [l] goes. *)
Definition over (l : bytes) (off : nat) (b : bytes) : bytes :=
  firstn (length l) (firstn off l ++ b ++ skipn (off + length b) l).

(** The specified effect of a call that returns: contents before, call, result,
    contents after. None is a destroyed buffer. *)
Definition change (s : list (option bytes)) (i : nat) (s' : list (option bytes)) (P : bytes -> bytes -> Prop) : Prop :=
  exists c c', nth_error s i = Some (Some c) /\ P c c' /\ s' = upd s i (Some c').
Definition query (s : list (option bytes)) (i : nat) (s' : list (option bytes)) (P : bytes -> Prop) : Prop :=
  s' = s /\ exists c, nth_error s i = Some (Some c) /\ P c.

Definition spec_step (s : list (option bytes)) (o : op) (r : obs) (s' : list (option bytes)) : Prop :=
  match o with
  | New _ => r = Handle (length s) /\ s' = s ++ [Some []]
  | NewFrom b _ => r = Handle (length s) /\ s' = s ++ [Some b]
  | Copy i => r = Handle (length s) /\ exists c, nth_error s i = Some (Some c) /\ s' = s ++ [Some c]
  | Set_ i j => r = Done /\ exists c, nth_error s j = Some (Some c) /\ change s i s' (fun _ c' => c' = c)
  | Destroy i => r = Done /\ (exists c, nth_error s i = Some (Some c)) /\ s' = upd s i None
  | Consume i n => r = Done /\ change s i s' (fun c c' => n <= length c /\ c' = skipn n c)
  | Write i b => r = Done /\ change s i s' (fun c c' => c' = c ++ b)
  | WriteExtend i b n => r = Done /\ change s i s' (fun c c' => n <= length b -> c' = c ++ firstn n b)
  | Extend i n => r = Done /\ change s i s' (fun c c' => exists junk, length junk = n /\ c' = c ++ junk)
  | Unextend i n => r = Done /\ change s i s' (fun c c' => n <= length c /\ c' = firstn (length c - n) c)
  | Poke i off b => r = Done /\ change s i s' (fun c c' => c' = over c off b)
  | Append i b => r = Done /\ change s i s' (fun c c' => c' = c ++ b)
  | AppendBuf i j => r = Done /\ exists d, nth_error s j = Some (Some d) /\ change s i s' (fun c c' => c' = c ++ d)
  | Replace i off b => r = Done /\ change s i s' (fun c c' => (0 <= off)%Z -> (off + Z.of_nat (length b) < 2 ^ 64)%Z ->
      (off + Z.of_nat (length b) <= Z.of_nat (length c))%Z /\ c' = over c (Z.to_nat off) b)
  | Resize i n => r = Done /\ change s i s' (fun c c' => length c <= n /\ c' = c)
  | Shift i | ForceUnique i => r = Done /\ change s i s' (fun c c' => c' = c)
  | Reset i | Purge i | Detach i => r = Done /\ change s i s' (fun c c' => c' = [])
  | Assign i b => r = Done /\ change s i s' (fun c c' => c' = b)
  | AssignBuf i j => r = Done /\ exists d, nth_error s j = Some (Some d) /\ change s i s' (fun c c' => i <> j -> c' = d)
  | AppendFrom i amount stream =>
      r = Stream (min amount (length stream)) (skipn amount stream)
      /\ change s i s' (fun c c' => c' = c ++ firstn amount stream)
  | AppendEntire _ i _ stream =>
      exists n, r = Stream n (skipn n stream) /\ n <= length stream /\ change s i s' (fun c c' => c' = c ++ firstn n stream)
  | ReadAvailable i => query s i s' (fun c => r = Count (length c))
  | WriteAvailable i => query s i s' (fun c => exists n, r = Count n)
  | BufferSize i => query s i s' (fun c => exists n, r = Count n /\ length c <= n)
  | Empty i => query s i s' (fun c => exists b, r = Truth b /\ (b = true <-> c = []))
  | AsString i => query s i s' (fun c => r = Bytes c)
  | Equal i j => query s i s' (fun c => exists d, nth_error s j = Some (Some d) /\ exists b, r = Truth b /\ (b = true <-> c = d))
  end.

(** A whole history of calls that all returned, from no buffers at all. *)
Inductive history : list (option bytes) -> list op -> list obs -> Prop :=
| h_nil : history [] [] []
| h_step : forall s ops rs o r s', history s ops rs -> spec_step s o r s' -> history s' (ops ++ [o]) (rs ++ [r]).

(** The buffer a call may change; None when it only makes a new one or looks. *)
Definition target (o : op) : option nat :=
  match o with
  | New _ | NewFrom _ _ | Copy _ => None
  | Set_ i _ | Destroy i | Consume i _ | Write i _ | WriteExtend i _ _ | Extend i _ | Unextend i _ | Poke i _ _
  | Append i _ | AppendBuf i _ | Replace i _ _ | Resize i _ | Shift i | Reset i | Purge i | Detach i
  | Assign i _ | AssignBuf i _ | ForceUnique i | AppendFrom i _ _ | AppendEntire _ i _ _ => Some i
  | ReadAvailable _ | WriteAvailable _ | BufferSize _ | Empty _ | AsString _ | Equal _ _ => None
  end.
(** Arguments the documentation allows for a call on a buffer holding [c]. *)
Definition allowed (o : op) (c : bytes) : Prop :=
  match o with
  | Consume _ n | Unextend _ n => n <= length c
  | Append _ _ | Shift _ | Reset _ | Purge _ | Assign _ _ => True
  | Resize _ n => length c <= n
  | Replace _ off b => (0 <= off)%Z /\ (off + Z.of_nat (length b) <= Z.of_nat (length c) < 2 ^ 64)%Z
  | AppendBuf i j | AssignBuf i j => i <> j
  | _ => False
  end.
(** The other buffer a call reads. *)
Definition reads (o : op) : option nat :=
  match o with AppendBuf _ j | AssignBuf _ j => Some j | _ => None end.
