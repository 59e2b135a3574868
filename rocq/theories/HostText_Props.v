(** Names of the host, texts of errors and wide strings: C119. *)
From Coq Require Import String List ZArith Bool Lia.
From Verif Require Import Common Base64_Spec HostText_Spec HostText_Model.
Import ListNotations.
Local Open Scope Z_scope.
Local Open Scope list_scope.

Lemma from_cstr_text s rest : c_text s -> from_cstr (map Some s ++ Some 0 :: rest) = Ok s.
Proof.
  induction s as [|c s IH]; intros H; cbn; [reflexivity|]. destruct (Z.eqb_spec c 0) as [->|N]; [destruct H; now left|]. rewrite IH; [reflexivity|]. intros I. apply H. now right.
Qed.
Lemma c_text_firstn n s : c_text s -> c_text (firstn n s).
Proof. intros H I. apply H. rewrite <- (firstn_skipn n s). apply in_or_app. now left. Qed.
Lemma put_end {X} (a b : list X) v w : put (a ++ v :: b) (length a) w = Ok (a ++ w :: b).
Proof.
  unfold put. rewrite app_length. cbn [length]. destruct (Nat.ltb_spec (length a) (length a + S (length b))) as [_|C]; [|lia]. f_equal.
  induction a as [|x a IH]; cbn; [reflexivity|]. now rewrite IH.
Qed.
Lemma canon_spec h l : (forall n, first_name l n -> canon h l = n) /\ ((forall n, ~ first_name l n) -> canon h l = h).
Proof.
  induction l as [|[x|] l (I1 & I2)]; cbn [canon].
  - split; [|reflexivity]. intros n (b & a & E & _). destruct b; discriminate.
  - split.
    + intros n ([|y b] & a & E & N); cbn in E; [now injection E|]. injection E as <- _. discriminate (N _ (or_introl eq_refl)).
    + intros N. destruct (N x). exists [], l. split; [reflexivity|]. intros ? [].
  - split.
    + intros n ([|y b] & a & E & N); cbn in E; [discriminate|]. injection E as <- ->. apply I1. exists b, a. split; [reflexivity|]. intros z Z. apply N. now right.
    + intros N. apply I2. intros n (b & a & -> & Nb). apply (N n). exists (None :: b), a. split; [reflexivity|]. intros z [<-|Z]; [reflexivity|now apply Nb].
Qed.

(** The buffer before the call, and what it holds after it *)
Lemma host_buffer h : c_text (h_name h) -> exists buf, put_zero 1023 (repeat None 1024) = Ok buf /\ length buf = 1024%nat /\
  ((length (h_name h) < 1023)%nat \/ h_fails h = false -> exists buf', gethostname h 1023 buf = (true, buf') /\ from_cstr buf' = Ok (firstn 1023 (h_name h))) /\
  ((1023 <= length (h_name h))%nat -> h_fails h = true -> fst (gethostname h 1023 buf) = false).
Proof.
  intros T. exists (repeat None 1023 ++ [Some 0]). split; [|split; [rewrite app_length, repeat_length; reflexivity|split]].
  - change 1024%nat with (1023 + 1)%nat. rewrite repeat_app. change (repeat None 1) with [@None Z]. rewrite <- (repeat_length (@None Z) 1023) at 1. unfold put_zero. apply put_end.
  - intros H. unfold gethostname. destruct (Nat.ltb_spec (length (h_name h)) 1023) as [L|L].
    + eexists. split; [reflexivity|]. unfold store. rewrite map_app, <- app_assoc. cbn [map app]. rewrite firstn_all2 by lia. now apply from_cstr_text.
    + destruct H as [H|H]; [lia|]. rewrite H. eexists. split; [reflexivity|]. unfold store. rewrite firstn_length, Nat.min_l by lia.
      rewrite skipn_app, (skipn_all2 (repeat None 1023)) by (rewrite repeat_length; lia). rewrite repeat_length, Nat.sub_diag. cbn [skipn app]. apply from_cstr_text. now apply c_text_firstn.
  - intros L F. unfold gethostname. destruct (Nat.ltb_spec (length (h_name h)) 1023); [lia|]. now rewrite F.
Qed.
Lemma fqdn_runs lookup h : c_text (h_name h) -> (length (h_name h) < 1023)%nat \/ h_fails h = false ->
  getHostFQDN lookup h = match lookup (firstn 1023 (h_name h)) with None => Ok (firstn 1023 (h_name h), 0) | Some l => Ok (canon (firstn 1023 (h_name h)) l, 0) end.
Proof.
  intros T H. destruct (host_buffer h T) as (buf & P & L & Y & _). destruct (Y H) as (buf' & G & F). unfold getHostFQDN. cbv zeta. rewrite repeat_length. change (1024 - 1)%nat with 1023%nat.
  rewrite P. cbn [bind]. rewrite L. change (1024 - 1)%nat with 1023%nat. rewrite G. cbn [invariant bind]. rewrite F. cbn [bind]. destruct (lookup _) as [l|]; [|reflexivity]. f_equal. f_equal. destruct l; reflexivity.
Qed.

(** getHostFQDN gives the first canonical name the resolver has for the name of the host, and
    that name if it has none or fails; what the resolver allocated is freed. *)
Theorem C119_fqdn : forall lookup h, c_text (h_name h) -> (length (h_name h) < 1023)%nat ->
  exists s, getHostFQDN lookup h = Ok (s, 0) /\
    (forall l n, lookup (h_name h) = Some l -> first_name l n -> s = n) /\
    ((forall l n, lookup (h_name h) = Some l -> ~ first_name l n) -> s = h_name h).
Proof.
  intros lookup h T L. rewrite (fqdn_runs lookup h T (or_introl L)), firstn_all2 by lia. destruct (lookup (h_name h)) as [l|] eqn:E.
  - exists (canon (h_name h) l). split; [reflexivity|]. destruct (canon_spec (h_name h) l) as (A & B). split.
    + intros l' n E' F. injection E' as <-. now apply A.
    + intros N. apply B. intros n. now apply N.
  - exists (h_name h). split; [reflexivity|]. split; [discriminate|]. reflexivity.
Qed.
Print Assumptions C119_fqdn.
Example C119_fqdn_case : c_text (codes "db7") /\ getHostFQDN (fun _ => Some [None; Some (codes "db7.example.org"); Some (codes "x")]) {| h_name := codes "db7"; h_fails := true |} = Ok (codes "db7.example.org", 0).
Proof. split; [|vm_compute; reflexivity]. cbv. intros H. repeat (destruct H as [H|H]; [discriminate|]). exact H. Qed.

(** A name of 1023 bytes or more: either the program ends, or the first 1023 bytes stand for
    it; the array is never read past its end. *)
Theorem C119_long_name : forall lookup h, c_text (h_name h) -> (1023 <= length (h_name h))%nat ->
  (h_fails h = true -> getHostFQDN lookup h = Abort) /\
  (h_fails h = false -> lookup (firstn 1023 (h_name h)) = None -> getHostFQDN lookup h = Ok (firstn 1023 (h_name h), 0)).
Proof.
  intros lookup h T L. split.
  - intros F. destruct (host_buffer h T) as (buf & P & LB & _ & N). specialize (N L F). unfold getHostFQDN. cbv zeta. rewrite repeat_length. change (1024 - 1)%nat with 1023%nat. rewrite P. cbn [bind]. rewrite LB. change (1024 - 1)%nat with 1023%nat.
    destruct (gethostname h 1023 buf) as (rc & b). cbn [fst] in N. now rewrite N.
  - intros F E. rewrite (fqdn_runs lookup h T (or_intror F)). now rewrite E.
Qed.
Print Assumptions C119_long_name.
(** So the name given back is not always the name of the host. *)
Theorem C119_fqdn_refuted : forall name, c_text name -> (1023 < length name)%nat ->
  exists s, getHostFQDN (fun _ => None) {| h_name := name; h_fails := false |} = Ok (s, 0) /\ s <> name.
Proof.
  intros name T L. exists (firstn 1023 name). split; [apply (C119_long_name (fun _ => None) {| h_name := name; h_fails := false |} T); cbn [h_name h_fails]; [lia|reflexivity|reflexivity]|].
  intros E. apply (f_equal (@length Z)) in E. rewrite firstn_length in E. lia.
Qed.
Print Assumptions C119_fqdn_refuted.
Example C119_long_case : c_text (repeat 97 1024).
Proof. intros I. now apply repeat_spec in I. Qed.

(** stringError gives the text the library has, of which at most 255 bytes if it is put into
    the buffer, and "strerror failed" if there is none, in both variants. *)
Theorem C119_error : forall f e,
  (forall s, f e = Own s -> c_text s -> stringError f e = Ok s) /\
  (forall s, f e = Stored s -> c_text s -> stringError f e = Ok (firstn 255 s)) /\
  (f e = NoText -> stringError f e = Ok (codes "strerror failed")).
Proof.
  intros f e. unfold stringError. cbv zeta. split; [|split].
  - intros s -> T. replace (put_zero 255 (repeat None 256)) with (Ok (repeat None 255 ++ [Some 0])) by (vm_compute; reflexivity). cbn [bind]. rewrite map_app. now apply from_cstr_text.
  - intros s -> T. pose proof (firstn_length 255 s) as FL. set (t := firstn 255 s) in *. assert (TT : c_text t) by now apply c_text_firstn. clearbody t. unfold store. rewrite map_app, app_length. cbn [map length].
    assert (LT : (length t <= 255)%nat) by lia. clear FL. destruct (Nat.eq_dec (length t) 255) as [E|E].
    + rewrite E. change (skipn (255 + 1) (repeat None 256)) with (@nil (option Z)). rewrite app_nil_r. unfold put_zero. rewrite <- E, <- (map_length Some t), put_end. cbn [bind]. now apply from_cstr_text.
    + replace (skipn (length t + 1) (repeat None 256)) with (repeat (@None Z) (254 - length t) ++ [None]).
      2:{ change 256%nat with (255 + 1)%nat. replace (255 + 1)%nat with ((length t + 1) + ((254 - length t) + 1))%nat by lia. rewrite (repeat_app _ (length t + 1)), skipn_app, skipn_all2, repeat_length, Nat.sub_diag by (rewrite repeat_length; lia). cbn [app skipn]. now rewrite repeat_app. }
      rewrite app_assoc. set (pre := (map Some t ++ [Some 0]) ++ repeat None (254 - length t)). assert (LP : length pre = 255%nat) by (unfold pre; rewrite !app_length, map_length, repeat_length; cbn [length]; lia).
      unfold put_zero. rewrite <- LP, put_end. cbn [bind]. unfold pre. rewrite <- !app_assoc. cbn [app]. now apply from_cstr_text.
  - intros ->. reflexivity.
Qed.
Print Assumptions C119_error.
Theorem C119_error_xsi : forall f e,
  (forall s, f e = Some s -> c_text s -> stringError_xsi f e = Ok (firstn 255 s)) /\ (f e = None -> stringError_xsi f e = Ok (codes "strerror failed")).
Proof.
  intros f e. unfold stringError_xsi. split; [|now intros ->]. intros s -> T. destruct (Nat.le_gt_cases 256 (length s)) as [L|L].
  - rewrite firstn_app. replace (256 - length s)%nat with 0%nat by lia. rewrite firstn_O, app_nil_r. unfold store. rewrite firstn_length, Nat.min_l by lia. change (skipn 256 (repeat None 256)) with (@nil (option Z)). rewrite app_nil_r.
    assert (exists c, firstn 256 s = firstn 255 s ++ [c]) as (c & ->).
    { exists (nth 255 s 0). rewrite <- (firstn_skipn 255 (firstn 256 s)), firstn_firstn. change (Nat.min 255 256) with 255%nat. f_equal. rewrite skipn_firstn_comm. change (256 - 255)%nat with 1%nat. destruct (skipn 255 s) as [|x r] eqn:E; [apply (f_equal (@length Z)) in E; rewrite skipn_length in E; cbn in E; lia|].
      cbn [firstn]. rewrite <- (firstn_skipn 255 s), app_nth2, E by (rewrite firstn_length; lia). rewrite firstn_length, Nat.min_l, Nat.sub_diag by lia. reflexivity. }
    rewrite map_app. cbn [map]. unfold put_zero. pose proof (put_end (map Some (firstn 255 s)) [] (Some c) (Some 0)) as Q. rewrite map_length, firstn_length, Nat.min_l in Q by lia. rewrite Q. cbn [bind]. apply from_cstr_text. now apply c_text_firstn.
  - pose proof (proj1 (proj2 (C119_error (fun _ => Stored s) e)) s eq_refl T) as H. unfold stringError in H. cbv zeta in H. rewrite (firstn_all2 (n := 256)) by (rewrite app_length; cbn; lia). rewrite firstn_all2 in H |- * by lia. exact H.
Qed.
Print Assumptions C119_error_xsi.
Example C119_error_case : stringError (fun e => if e =? 2 then Own (codes "No such file or directory") else Stored (repeat 97 300)) 2 = Ok (codes "No such file or directory") /\
  stringError (fun e => Stored (repeat 97 300)) 999 = Ok (repeat 97 255).
Proof. split; vm_compute; reflexivity. Qed.

(** string2wstring and wstring2string convert each character on its own, in order. *)
Lemma fold_map {X Y} (f : X -> Y) s : forall out, fold_left (fun out c => out ++ [f c]) s out = out ++ map f s.
Proof. induction s as [|c s IH]; intros out; cbn; [now rewrite app_nil_r|]. now rewrite IH, <- app_assoc. Qed.
Theorem C119_wide : forall widen narrow s d,
  length (string2wstring widen s) = length s /\ (forall i, (i < length s)%nat -> nth i (string2wstring widen s) 0 = widen (nth i s 0)) /\
  length (wstring2string narrow s d) = length s /\ (forall i, (i < length s)%nat -> nth i (wstring2string narrow s d) 0 = narrow (nth i s 0) d).
Proof.
  intros widen narrow s d. unfold string2wstring, wstring2string. rewrite (fold_map widen), (fold_map (fun c => narrow c d)). cbn [app]. rewrite !map_length. repeat split.
  - intros i L. rewrite (nth_indep _ 0 (widen 0)) by now rewrite map_length. apply map_nth.
  - intros i L. rewrite (nth_indep _ 0 (narrow 0 d)) by now rewrite map_length. apply (map_nth (fun c => narrow c d)).
Qed.
Print Assumptions C119_wide.
(** There and back gives the string, exactly if the locale takes each of its characters back. *)
Theorem C119_wide_back : forall widen narrow s d,
  wstring2string narrow (string2wstring widen s) d = s <-> forall c, In c s -> narrow (widen c) d = c.
Proof.
  intros widen narrow s d. unfold string2wstring, wstring2string. rewrite (fold_map widen), (fold_map (fun c => narrow c d)). cbn [app]. rewrite map_map. split.
  - intros E c I. rewrite <- (map_id s) in E at 2. exact (ext_in_map E c I).
  - intros H. rewrite <- (map_id s) at 2. apply map_ext_in. exact H.
Qed.
Print Assumptions C119_wide_back.
(** A character of more than one byte never becomes one wide character, in no locale. *)
Theorem C119_multibyte_refuted : forall widen bytes wide, (1 < length bytes)%nat -> string2wstring widen bytes <> [wide].
Proof. intros widen bytes wide L E. pose proof (proj1 (C119_wide widen (fun _ _ => 0) bytes 0)) as H. rewrite E in H. cbn in H. lia. Qed.
Print Assumptions C119_multibyte_refuted.
Example C119_wide_case : let narrow c d := if c <? 128 then c else d in
  wstring2string narrow (string2wstring (fun c => c) (codes "az09")) 63 = codes "az09" /\ wstring2string narrow [97; 233; 98] 63 = codes "a?b".
Proof. split; vm_compute; reflexivity. Qed.
