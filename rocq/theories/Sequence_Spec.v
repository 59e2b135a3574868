(** Specification of StatsSequence: which samples a retained value stands for. *)
From Coq Require Import List Arith ZArith QArith.
From Verif Require Import Common Arith Stats_Spec Sequence_Model.
Import ListNotations.

(** [x] is the aggregate of the samples of one bucket. *)
Definition is_agg (m : mode) (x : xnum) (bucket : list Q) : Prop :=
  match m with
  | MergeSum => fin_eq x (qsum bucket)
  | MergeMean => fin_eq x (qmean bucket)
  | MergeMax => is_max x bucket
  end.

(** The i-th bucket when every bucket has [w] samples. *)
Definition bucket (w : nat) (l : list Q) (i : nat) : list Q := firstn w (skipn (i * w) l).

(** The samples since the last reset, and the merge mode in force. *)
Definition samples_step (l : list Q) (o : sop) : list Q :=
  match o with SAdd v => l ++ [v] | SReset => [] | SMode _ => l end.
Definition samples (ops : list sop) : list Q := fold_left samples_step ops [].
Definition mode_step (m : mode) (o : sop) : mode := match o with SMode m' => m' | _ => m end.
Definition final_mode (m : mode) (ops : list sop) : mode := fold_left mode_step ops m.

(** Histories the theorem speaks about: the mode only changes while no sample is
    held, under MergeMax samples are not negative, and no more than
    max_retain * 2^30 samples are ever held. *)
Fixpoint legal (mr : nat) (m : mode) (l : list Q) (ops : list sop) : Prop :=
  (Z.of_nat (length l) <= Z.of_nat mr * 2 ^ 30)%Z /\
  match ops with
  | [] => True
  | o :: r =>
    match o with
    | SAdd v => m = MergeMax -> (0 <= v)%Q
    | SReset => True
    | SMode _ => l = []
    end /\ legal mr (mode_step m o) (samples_step l o) r
  end.
