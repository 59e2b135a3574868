(** Property C29 of the hash functions. *)
From Coq Require Import List ZArith Bool Lia ZifyBool ZifyNat.
From Verif Require Import Common CommonFacts ListFacts HashFns_Spec HashFns_Model HashFns_Proofs.
Import ListNotations.
Open Scope Z_scope.
Local Opaque mix.

(** The mixing step loses nothing. *)
Theorem C29_mix_bijective : bijective_on_words mix.
Proof.
  pose proof mix3_bij as (B1 & B2 & B3). split; [|split].
  - intros a b c A B C. exact (B1 (a, b, c) (conj A (conj B C))).
  - intros a b c a' b' c' A B C A' B' C' E.
    specialize (B2 (a, b, c) (a', b', c') (conj A (conj B C)) (conj A' (conj B' C')) E). injection B2 as -> -> ->. auto.
  - intros x y z X Y Z. destruct (B3 (x, y, z) (conj X (conj Y Z))) as ([[a b] c] & (A & B & C) & E). exists a, b, c. auto.
Qed.
(** The byte hash is Jenkins' hash of exactly the given bytes: it reads all of
    them and nothing else. *)
Theorem C29_hash_of_all_bytes_partial : forall initval k, word initval -> Forall byte k -> Z.of_nat (length k) < 2 ^ 32 ->
  exists a b h, jenkins (fun '(a, b, c) => mix a b c) initval k = (a, b, h) /\ word h /\ bobJenkinsHash initval k = Ok h.
Proof.
  intros iv k Hi F L. pose proof (jenkins_words iv k) as W. rewrite hash_spec by assumption.
  assert (E : jenkins (fun '(a, b, c) => mix a b c) iv k = jenkins mix3 iv k) by reflexivity.
  rewrite E. destruct (jenkins mix3 iv k) as [[a b] h]. exists a, b, h. split; [reflexivity|]. split; [apply W|reflexivity].
Qed.
(** A full last block goes into the final state without loss: after any whole
    blocks, the 2^96 possible next blocks give 2^96 different final states, the
    third word of which is the hash. So every hash value comes from equally many
    blocks. *)
Theorem C29_blocks_equidistributed : forall initval p, word initval -> Forall byte p -> (exists m, length p = 12 * m)%nat ->
  Z.of_nat (length p) + 12 < 2 ^ 32 ->
  exists f : list Z -> Z * Z * Z,
    (forall q, length q = 12%nat -> Forall byte q -> let '(x, y, z) := f q in
       word x /\ word y /\ word z /\ bobJenkinsHash initval (p ++ q) = Ok z)
    /\ (forall q q', length q = 12%nat -> Forall byte q -> length q' = 12%nat -> Forall byte q' -> f q = f q' -> q = q')
    /\ (forall x y z, word x -> word y -> word z -> exists q, length q = 12%nat /\ Forall byte q /\ f q = (x, y, z)).
Proof.
  intros iv p Hi F [m Lp] L. pose proof mix3_bij as (B1 & B2 & B3).
  set (s := whole_blocks mix3 m p (0x9e3779b9, 0x9e3779b9, iv)).
  exists (fun q => jenkins mix3 iv (p ++ q)). split; [|split].
  - intros q Lq Fq. pose proof (jenkins_words iv (p ++ q)) as W.
    pose proof (hash_spec iv (p ++ q) Hi) as H. destruct (jenkins mix3 iv (p ++ q)) as [[x y] z]. destruct W as (X & Y & Z).
    repeat split; try apply X; try apply Y; try apply Z. apply H; [now apply Forall_app|rewrite app_length; lia].
  - intros q q' Lq Fq Lq' Fq' E. rewrite !(jenkins_block iv p _ m) in E by (assumption || now split).
    apply B2 in E; [|apply plus32_words ..]. rewrite !(plus32_comm _ (0, 0, _)) in E.
    assert (W3 : forall s, words3 (mix3 (plus32 s (words q))) /\ words3 (mix3 (plus32 s (words q'))))
      by (intros; split; apply B1; apply plus32_words).
    apply plus32_inj_r in E; [|apply W3 ..]. apply B2 in E; [|apply plus32_words ..].
    apply plus32_inj_r in E; [|apply words_words3; now split ..]. apply words_inj; [now split..|exact E].
  - intros x y z X Y Z. destruct (B3 (x, y, z) (conj X (conj Y Z))) as (t & Ht & Et).
    destruct (plus32_onto (0, 0, Z.of_nat (length p + 12)) t Ht) as (u & Hu & Eu).
    destruct (B3 u Hu) as (v & Hv & Ev). destruct (plus32_onto s v Hv) as ([[x' y'] z'] & (X' & Y' & Z') & Ew).
    destruct (words_onto x' y' z' X' Y' Z') as (q & [Lq Fq] & Eq). exists q. split; [exact Lq|]. split; [exact Fq|].
    rewrite (jenkins_block iv p q m) by (assumption || now split). fold s. rewrite Eq, Ew, Ev, plus32_comm, Eu. exact Et.
Qed.
(** Keys of 4 GiB and more are not hashed whole: every key whose length is a
    multiple of 2^32 has the hash of the empty key. *)
Theorem C29_long_keys_refuted :
  (forall initval k, u32 (Z.of_nat (length k)) = 0 -> word initval -> bobJenkinsHash initval k = bobJenkinsHash initval [])
  /\ exists k k', k <> k' /\ length k = length k' /\ Forall byte k /\ Forall byte k'
       /\ forall initval, word initval -> bobJenkinsHash initval k = bobJenkinsHash initval k'.
Proof.
  assert (G : forall initval k, u32 (Z.of_nat (length k)) = 0 -> word initval -> bobJenkinsHash initval k = bobJenkinsHash initval []).
  { intros iv k H Hi. unfold bobJenkinsHash. rewrite H. cbn [main_loop Z.leb Z.compare bind].
    assert (E : add iv (Z.of_nat (length k)) = add iv 0).
    { unfold add, u32 in *. rewrite Z.add_0_r. rewrite Z.add_mod, H, Z.add_0_r, Zmod_mod by lia. reflexivity. }
    rewrite E. reflexivity. }
  split; [exact G|]. set (n := Z.to_nat (2 ^ 32)).
  assert (N : forall v : Z, u32 (Z.of_nat (length (repeat v n))) = 0).
  { intros v. rewrite repeat_length. unfold n. rewrite Z2Nat.id by lia. reflexivity. }
  exists (repeat 0 n), (repeat 1 n). split.
  - assert (exists m, n = S m) as [m ->] by (exists (pred n); unfold n; lia). discriminate.
  - split; [now rewrite !repeat_length|]. split; [apply Forall_forall; intros x H; apply repeat_spec in H; unfold byte; lia|].
    split; [apply Forall_forall; intros x H; apply repeat_spec in H; unfold byte; lia|].
    intros iv Hi. rewrite (G iv (repeat 0 n) (N 0) Hi), (G iv (repeat 1 n) (N 1) Hi). reflexivity.
Qed.
(** Hashing never fails, and gives a 32-bit value, for all the other key types. *)
Theorem C29_hashes_are_words :
  (forall v partial, word partial -> word (BobJenkinsHashMixULL v partial))
  /\ (forall h1 h2, word h1 -> word h2 -> exists h, hash_pair h1 h2 = Ok h /\ word h)
  /\ (forall size v, In size [1; 2; 4; 8]%nat -> exists h, hash_integral size v = Some h /\ word h).
Proof.
  pose proof mix3_bij as (B1 & _ & _).
  assert (Ld : forall v, word (Z.land v 0xFFFFFFFF)).
  { intros v. change 0xFFFFFFFF with (Z.ones 32). rewrite Z.land_ones by lia. apply Z.mod_pos_bound. lia. }
  assert (U : forall v partial, word partial -> word (BobJenkinsHashMixULL v partial)).
  { intros v p Hp. unfold BobJenkinsHashMixULL.
    pose proof (B1 (Z.land v 0xFFFFFFFF, Z.land (Z.shiftr v 32) 0xFFFFFFFF, p) (conj (Ld _) (conj (Ld _) Hp))) as W.
    unfold mix3 in W. destruct (mix _ _ _) as [[x y] z]. apply W. }
  split; [exact U|]. split.
  - intros h1 h2 H1 H2.
    destruct (C29_hash_of_all_bytes_partial h2 (bytes_of h1) H2) as (a & b & h & _ & Wh & E);
      [repeat constructor; apply Z.mod_pos_bound; lia|cbn; lia|]. exists h. auto.
  - intros size v [<-|[<-|[<-|[<-|[]]]]]; unfold hash_integral; eexists; (split; [reflexivity|]).
    + assert (0 <= v mod 2 ^ 8 < 2 ^ 8) by (apply Z.mod_pos_bound; lia). unfold word. lia.
    + assert (0 <= v mod 2 ^ 16 < 2 ^ 16) by (apply Z.mod_pos_bound; lia). unfold word. lia.
    + apply Z.mod_pos_bound. lia.
    + apply U. unfold word. lia.
Qed.
(** Integers of at most 32 bits never collide: no two values of the same signed or
    unsigned type have the same hash. *)
Theorem C29_small_integers_injective : forall size v v' lo, In size [1; 2; 4]%nat ->
  lo <= v < lo + 2 ^ (8 * Z.of_nat size) -> lo <= v' < lo + 2 ^ (8 * Z.of_nat size) ->
  hash_integral size v = hash_integral size v' -> v = v'.
Proof.
  intros size v v' lo H Hv Hv' E. assert (I : hash_integral size v = Some (v mod 2 ^ (8 * Z.of_nat size)) /\ hash_integral size v' = Some (v' mod 2 ^ (8 * Z.of_nat size)))
    by (destruct H as [<-|[<-|[<-|[]]]]; split; reflexivity).
  destruct I as [I I']. rewrite I, I' in E. injection E as E.
  assert (0 < 2 ^ (8 * Z.of_nat size)) by (apply Z.pow_pos_nonneg; lia). set (M := 2 ^ _) in *.
  pose proof (Z.div_mod v M). pose proof (Z.div_mod v' M). assert (v / M = v' / M) by nia. lia.
Qed.
Local Transparent mix.
(** The value the hash gives for a 14-byte key with the default start. *)
Example C29_nonvacuous : word 1972 /\ (exists h, hash_string [104; 101; 108; 108; 111; 32; 119; 111; 114; 108; 100; 33; 33; 33] = Ok h /\ word h)
  /\ mix 1 2 3 <> mix 1 2 4 /\ hash_integral 4 (-1) = Some 4294967295.
Proof.
  split; [unfold word; lia|]. split; [eexists; split; [vm_compute; reflexivity|unfold word; lia]|]. split; [vm_compute; discriminate|reflexivity].
Qed.
Print Assumptions C29_mix_bijective.
Print Assumptions C29_hash_of_all_bytes_partial.
Print Assumptions C29_blocks_equidistributed.
Print Assumptions C29_long_keys_refuted.
Print Assumptions C29_hashes_are_words.
Print Assumptions C29_small_integers_injective.
