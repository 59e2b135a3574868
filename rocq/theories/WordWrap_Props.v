(** C52: basicWordWrap. *)
From Coq Require Import List Arith ZArith Lia Bool ZifyBool ZifyNat.
From Verif Require Import Common CommonFacts WordWrap_Model WordWrap_Spec WordWrap_Proofs.
Import ListNotations.

(** C52. For every text and every width the function returns (its assertions hold,
    it stays inside the text and it ends), and the output is the text with every
    line split on its own as specified, for the width, or 10 if the width is less. *)
Theorem C52_wraps : forall help_width text, exists outs,
  Forall2 (wraps (Nat.max 10 help_width)) (lines text) outs /\ basicWordWrap help_width text = Ok (unlines (concat outs)).
Proof.
  intros hw text. unfold basicWordWrap. replace (if hw <? 10 then 10 else hw) with (Nat.max 10 hw) by (destruct (Nat.ltb_spec hw 10); lia).
  destruct (loop_spec (Nat.max 10 hw) ltac:(lia) (S (length text)) [] text ltac:(lia)) as (out & E & outs & F & ->). exists outs. auto.
Qed.
Print Assumptions C52_wraps.

(** C52. No line of the output is longer than the width. *)
Theorem C52_line_length : forall help_width text out, basicWordWrap help_width text = Ok out ->
  Forall (fun l => length l <= Nat.max 10 help_width) (lines out).
Proof.
  intros hw text out E. destruct (C52_wraps hw text) as (outs & F & E2). rewrite E in E2. injection E2 as ->.
  rewrite lines_unlines; [|exact (concat_nonempty F (lines_nonempty text))|].
  - apply Forall_concat. clear E. induction F; constructor; auto. now apply (wraps_short _ x).
  - apply Forall_concat. pose proof (lines_nonl text) as N. clear E. induction F; [constructor|]. inversion N; subst. constructor; auto. now apply (wraps_nonl (Nat.max 10 hw) x).
Qed.
Print Assumptions C52_line_length.

(** C52. Apart from line ends replacing spaces and added line ends the text is kept. *)
Theorem C52_text_kept : forall help_width text out, basicWordWrap help_width text = Ok out -> reflowed text out.
Proof.
  intros hw text out E. destruct (C52_wraps hw text) as (outs & F & E2). rewrite E in E2. injection E2 as ->. rewrite <- (unlines_lines text) at 1. eapply lines_reflowed; [apply lines_nonempty|exact F].
Qed.
Print Assumptions C52_text_kept.

(** C52. A text whose lines fit is not changed; so wrapping twice is wrapping once. *)
Theorem C52_fitting_unchanged : forall help_width text, Forall (fun l => length l <= Nat.max 10 help_width) (lines text) -> basicWordWrap help_width text = Ok text.
Proof.
  intros hw text H. destruct (C52_wraps hw text) as (outs & F & ->). f_equal. rewrite <- (unlines_lines text) at 1. f_equal. induction F as [|l o ls os W F IH]; [reflexivity|]. inversion H as [|? ? Hl Hr]; subst. cbn [concat]. rewrite IH by assumption.
  clear IH F. destruct W as [l L|a b out L1 L2 L3 W|a b out L1 L2 L3 W]; [reflexivity|lia|]. rewrite app_length in Hl. destruct b; [congruence|cbn [length] in Hl; lia].
Qed.
Print Assumptions C52_fitting_unchanged.
Theorem C52_idempotent : forall help_width text out, basicWordWrap help_width text = Ok out -> basicWordWrap help_width out = Ok out.
Proof. intros hw text out E. apply C52_fitting_unchanged. exact (C52_line_length hw text out E). Qed.
Print Assumptions C52_idempotent.

(** A line cut at a space, a line cut inside a long word, and a line that fits. *)
Example C52_ex : basicWordWrap 10 ([97;97;97;97;97;97; 32; 98;98;98;98; 32; 99;99;99;99;99;99;99;99;99;99;99;99; 10; 100])%Z
  = Ok ([97;97;97;97;97;97; 10; 98;98;98;98; 32; 99;99;99;99;99; 10; 99;99;99;99;99;99;99; 10; 100])%Z.
Proof. vm_compute. reflexivity. Qed.
