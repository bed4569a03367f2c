(** C63, exactly: for which shared numbers the mask is the one the specification
    prescribes. *)
From Coq Require Import Lia ZifyBool ZifyN ZifyNat.
From Verif Require Import Py PyFacts CryptUtil CryptUtilFacts DH DHFacts Prop_Crypt.

(** Byte strings of one length and one big endian value are equal. *)
Lemma be_unique : forall a b,
  Forall isbyte a -> Forall isbyte b -> length a = length b -> be 0 a = be 0 b -> a = b.
Proof.
  induction a as [|x a IH]; intros [|y b] Ha Hb L E; try discriminate; auto.
  inversion Ha as [|? ? Hx Ha']; subst. inversion Hb as [|? ? Hy Hb']; subst. injection L as L.
  cbn [be] in E. rewrite (be_shift a), (be_shift b), L in E.
  pose proof (be_bound a Ha') as B1. pose proof (be_bound b Hb') as B2. rewrite L in B1.
  assert (x = y) by nia. subst. f_equal. apply IH; auto. nia.
Qed.

Lemma be_head x r : be 0 (x :: r) = x * 256 ^ N.of_nat (length r) + be 0 r.
Proof. cbn [be]. rewrite be_shift. lia. Qed.

Lemma big_endian_is_be s : big_endian s = Z.of_N (be 0 s).
Proof. exact (big_endian_be s 0). Qed.

Lemma be_bytes_len k : forall n acc, length (be_bytes k n acc) = (k + length acc)%nat.
Proof.
  induction k as [|k IH]; intros n acc; cbn [be_bytes]; auto. rewrite IH. cbn [length]. lia.
Qed.

(** The code hashes the shared number written at the length k of the modulus, with
    a zero byte in front if the top bit is set; the specification hashes the
    shortest encoding without sign bit.  They differ exactly if k is at least two
    and the number is below 2^(8k-9), that is, if the first nine bits are zero. *)
Theorem C63_mask_hashes_btwoc_exactly :
  forall pub_ok d pub number padded b,
    get_shared_secret pub_ok d pub = Ok padded ->
    bytes_to_int padded = Ok number ->
    int_to_bytes number = Ok b ->
    length padded = byte_length (dh_p d) /\
    (fix_btwoc padded = Ok b <->
     ~ exists j, byte_length (dh_p d) = S (S j) /\ (number < 128 * 256 ^ Z.of_nat j)%Z).
Proof.
  intros pub_ok d pub number padded b H1 H2 H3.
  assert (Forall isbyte padded /\ length padded = byte_length (dh_p d)) as [HF HL].
  { unfold get_shared_secret in H1. destruct (base64ToLong pub) as [y|e]; [cbn [bind] in H1|discriminate].
    destruct (pub_ok _ _ _); [|discriminate]. injection H1 as <-. split.
    - apply be_bytes_bytes. constructor.
    - rewrite be_bytes_len. cbn [length]. lia. }
  split; [exact HL|]. rewrite <- HL. clear H1 HL.
  assert (padded <> []) as NE.
  { intros ->. rewrite (proj2 C04_rejects) in H2. discriminate. }
  rewrite bytes_to_int_be in H2 by auto. injection H2 as <-.
  destruct (C04_int_to_bytes (Z.of_N (be 0 padded)) ltac:(lia)) as (s & E & Hs & _ & Hbe & (y & t & Es & Hy) & Hmin).
  rewrite H3 in E. injection E as <-. apply is_bytes_Forall in Hs. rewrite big_endian_is_be in Hbe.
  assert (forall j, (Z.of_N (be 0 padded) < 128 * 256 ^ Z.of_nat j)%Z <-> be 0 padded < 128 * 256 ^ N.of_nat j) as CV.
  { intros j. assert (256 ^ Z.of_nat j = Z.of_N (256 ^ N.of_nat j))%Z as -> by (rewrite N2Z.inj_pow, nat_N_Z; reflexivity). lia. }
  destruct padded as [|x r]; [destruct (NE eq_refl)|]. inversion HF as [|? ? Hx Hr]; subst. unfold isbyte in Hx.
  split.
  - intros F (j & Lj & Nj). apply CV in Nj. cbn [length] in Lj. injection Lj as Lj.
    destruct r as [|x2 r]; [discriminate|]. cbn [length] in Lj. injection Lj as Lj. subst j.
    inversion Hr as [|? ? Hx2 Hr2]; subst.
    rewrite be_head in Nj. cbn [length] in Nj. rewrite Nat2N.inj_succ, N.pow_succ_r' in Nj.
    assert (256 ^ N.of_nat (length r) <> 0) as P0 by (apply N.pow_nonzero; lia).
    assert (x = 0) as -> by nia.
    rewrite be_head in Nj. assert (x2 < 128) as S2 by nia.
    unfold fix_btwoc in F. change (127 <? 0) with false in F. injection F as F1 F2.
    assert (length (y :: t) <= length (x2 :: r))%nat as C.
    { apply Hmin.
      - apply is_bytes_Forall. auto.
      - rewrite big_endian_is_be. rewrite (be_head 0). reflexivity.
      - eauto. }
    rewrite <- F1, <- F2 in C. cbn [length] in C. lia.
  - intros Hn.
    assert (exists s, fix_btwoc (x :: r) = Ok s /\ Forall isbyte s /\ be 0 s = be 0 (x :: r) /\
              (exists z q, s = z :: q /\ z < 128) /\
              (length s <= length (y :: t))%nat) as (s & Fs & HFs & Bs & Cs & Ls).
    { assert (256 ^ N.of_nat (length r) <> 0) as P0 by (apply N.pow_nonzero; lia).
      pose proof (be_bound _ Hs) as BB. assert (be 0 (y :: t) = be 0 (x :: r)) as BE by lia.
      inversion Hs as [|? ? Hy' Ht]; subst. pose proof (be_bound t Ht) as Bt.
      assert (be 0 (y :: t) < 128 * 256 ^ N.of_nat (length t)) as BY by (rewrite be_head; nia).
      unfold fix_btwoc. destruct (127 <? x) eqn:C.
      + exists (0 :: x :: r). split; [reflexivity|]. split; [repeat constructor; auto|].
        split; [rewrite (be_head 0); lia|]. split; [exists 0, (x :: r); split; [reflexivity|lia]|].
        destruct (Nat.le_gt_cases (length (0 :: x :: r)) (length (y :: t))) as [|G]; auto. exfalso.
        cbn [length] in G. assert (256 ^ N.of_nat (length t) <= 256 ^ N.of_nat (length r)) by (apply N.pow_le_mono_r; lia).
        rewrite BE, be_head in BY. apply N.ltb_lt in C. nia.
      + exists (x :: r). split; [reflexivity|]. split; [auto|]. split; [reflexivity|].
        apply N.ltb_ge in C. split; [exists x, r; split; [reflexivity|lia]|].
        destruct (Nat.le_gt_cases (length (x :: r)) (length (y :: t))) as [|G]; auto. exfalso.
        cbn [length] in G. destruct r as [|x2 r]; [cbn [length] in G; lia|]. cbn [length] in G.
        assert (256 ^ N.of_nat (length t) <= 256 ^ N.of_nat (length r)) by (apply N.pow_le_mono_r; lia).
        apply Hn. exists (length r). split; [reflexivity|]. apply CV. rewrite <- BE. nia. }
    rewrite Fs. f_equal. apply be_unique; auto; [|lia].
    assert (length (y :: t) <= length s)%nat; [|lia]. apply Hmin.
    + apply is_bytes_Forall; auto.
    + rewrite big_endian_is_be, Bs. reflexivity.
    + auto.
Qed.
Print Assumptions C63_mask_hashes_btwoc_exactly.

(** In the other cases [xor_secret] masks the key as the
    specification says. *)
Theorem C63_xor_secret_mask :
  forall pub_ok hash d pub number padded b secret alg,
    get_shared_secret pub_ok d pub = Ok padded ->
    bytes_to_int padded = Ok number ->
    int_to_bytes number = Ok b ->
    (~ exists j, byte_length (dh_p d) = S (S j) /\ (number < 128 * 256 ^ Z.of_nat j)%Z) ->
    xor_secret pub_ok hash d pub secret alg =
      (s <- fromBase64 secret ;; r <- strxor s (hash alg b) ;; Ok (toBase64 r)).
Proof.
  intros pub_ok hash d pub number padded b secret alg H1 H2 H3 Hn.
  destruct (C63_mask_hashes_btwoc_exactly _ _ _ _ _ _ H1 H2 H3) as (_ & X).
  apply X in Hn. unfold xor_secret. rewrite H1. cbn [bind]. rewrite Hn. reflexivity.
Qed.
Print Assumptions C63_xor_secret_mask.

(** Both sides of the line for a three byte modulus: 2^15 and 2^15 - 1 are shared. *)
Example C63_exactly_example :
  let d := mkDH 65537 3 1 in
  (exists p, get_shared_secret (fun _ _ _ => true) d (u "AIAA") = Ok p /\ bytes_to_int p = Ok 32768%Z /\
             fix_btwoc p = int_to_bytes 32768) /\
  (exists p, get_shared_secret (fun _ _ _ => true) d (u "f/8=") = Ok p /\ bytes_to_int p = Ok 32767%Z /\
             fix_btwoc p <> int_to_bytes 32767).
Proof.
  split; eexists; (split; [vm_compute; reflexivity|]); (split; [vm_compute; reflexivity|]).
  - vm_compute; reflexivity.
  - vm_compute; discriminate.
Qed.
