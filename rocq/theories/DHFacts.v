(** Proofs about [DH]. *)
From Coq Require Import Lia ZifyBool ZifyN ZifyNat Zpow_facts.
From Verif Require Import Py PyFacts CryptUtil CryptUtilFacts DH.
Local Ltac Zify.zify_post_hook ::= Z.div_mod_to_equations.

Lemma xor_bytes_length x : forall y, length x = length y -> length (xor_bytes x y) = length x.
Proof. induction x; intros [|b y] H; simpl in *; auto; try discriminate. Qed.
Lemma xor_bytes_invol x : forall y, length x = length y -> xor_bytes (xor_bytes x y) y = x.
Proof.
  induction x as [|a x IH]; intros [|b y] H; simpl in *; auto; [discriminate|].
  rewrite IH by auto. rewrite N.lxor_assoc, N.lxor_nilpotent, N.lxor_0_r. auto.
Qed.
Lemma lxor_byte a b : isbyte a -> isbyte b -> isbyte (N.lxor a b).
Proof.
  unfold isbyte. intros Ha Hb.
  destruct (N.eq_dec (N.lxor a b) 0) as [->|Hne]; [lia|].
  change 256 with (2 ^ 8). apply N.log2_lt_pow2; [lia|].
  pose proof (N.log2_lxor a b) as L.
  assert (forall n, n < 256 -> N.log2 n < 8) as HL.
  { intros n Hn. destruct (N.eq_dec n 0) as [->|]; [cbn; lia|]. apply N.log2_lt_pow2; [lia|]. exact Hn. }
  pose proof (HL a Ha). pose proof (HL b Hb). lia.
Qed.
Lemma xor_bytes_bytes x : Forall isbyte x -> forall y, Forall isbyte y -> Forall isbyte (xor_bytes x y).
Proof.
  induction 1; intros [|b y] Hy; simpl; try constructor; inv Hy; auto using lxor_byte.
Qed.

Lemma be_bytes_bytes k : forall n acc, Forall isbyte acc -> Forall isbyte (be_bytes k n acc).
Proof.
  induction k as [|k IH]; intros n acc H; simpl; auto. apply IH. constructor; auto. unfold isbyte. lia.
Qed.

Lemma longToBase64_Ok z : (0 <= z)%Z -> exists t, longToBase64 z = Ok t /\ base64ToLong t = Ok z.
Proof.
  intros Hz. destruct (int_to_bytes_spec z Hz) as (s & E & HF & Hbe & Hh & _).
  unfold longToBase64. rewrite E. simpl. eexists; split; eauto.
  unfold base64ToLong. rewrite fromBase64_toBase64 by auto. simpl.
  rewrite bytes_to_int_be; auto; [congruence|]. intros ->. simpl in Hh. lia.
Qed.

Lemma powmod_comm g a b p : (0 < p)%Z -> (0 <= a)%Z -> (0 <= b)%Z ->
  ((g ^ a mod p) ^ b mod p = (g ^ b mod p) ^ a mod p)%Z.
Proof.
  intros Hp Ha Hb. rewrite <- !Zpower_mod by auto. rewrite <- !Z.pow_mul_r by auto.
  rewrite Z.mul_comm. auto.
Qed.

  Definition shared (c s : dh) : bytes :=
    be_bytes (byte_length (dh_p c)) (Z.to_N (public_number s ^ dh_x c mod dh_p c)) [].

  Lemma get_shared_secret_of pub_ok c s t :
    (0 < dh_p s)%Z -> dh_p c = dh_p s -> dh_g c = dh_g s -> public_key s = Ok t ->
    pub_ok (dh_p s) (dh_g s) (public_number s) = true ->
    get_shared_secret pub_ok c t = Ok (shared c s).
  Proof.
    intros Hp Ep Eg Ht Hok. unfold public_key in Ht.
    destruct (longToBase64_Ok (public_number s)) as (t' & E1 & E2).
    { unfold public_number. lia. }
    rewrite E1 in Ht. inv Ht. unfold get_shared_secret. rewrite E2. simpl. rewrite Ep, Eg, Hok.
    unfold shared. rewrite Ep. auto.
  Qed.

  Lemma shared_sym c s :
    (0 < dh_p s)%Z -> (0 <= dh_x c)%Z -> (0 <= dh_x s)%Z -> dh_p c = dh_p s -> dh_g c = dh_g s ->
    shared c s = shared s c.
  Proof.
    intros Hp Hc Hs Ep Eg. unfold shared, public_number. rewrite Ep, Eg. f_equal. f_equal.
    apply powmod_comm; auto.
  Qed.

  (** What the two ends hash. *)
  Definition mask (hash : hash_alg -> bytes -> bytes) alg (c s : dh) : res bytes := b <- fix_btwoc (shared c s) ;; Ok (hash alg b).

  Lemma fix_btwoc_shared c s : (0 < dh_p c)%Z -> exists b, fix_btwoc (shared c s) = Ok b.
  Proof.
    intros Hp. unfold shared, byte_length.
    assert (N.to_nat ((N.size (Z.to_N (dh_p c)) + 7) / 8) <> 0%nat) as Hn.
    { destruct (dh_p c); try lia. simpl Z.to_N. unfold N.size. lia. }
    destruct (N.to_nat _) as [|k]; [contradiction|]. generalize (Z.to_N (public_number s ^ dh_x c mod dh_p c)).
    assert (forall k n acc, acc <> [] -> be_bytes k n acc <> []) as H.
    { clear. induction k; simpl; intros; auto. apply IHk. discriminate. }
    intros n. simpl. specialize (H k (n / 256) [n mod 256] ltac:(discriminate)).
    destruct (be_bytes k (n / 256) [n mod 256]); [contradiction|]. simpl. destruct (127 <? _); eauto.
  Qed.

  Lemma server_answer_spec pub_ok hash c s pub secret alg :
    (forall alg s, Forall isbyte (hash alg s)) ->
    (0 < dh_p s)%Z -> (0 <= dh_x c)%Z -> (0 <= dh_x s)%Z ->
    dh_p c = dh_p s -> dh_g c = dh_g s ->
    public_key c = Ok pub ->
    pub_ok (dh_p s) (dh_g s) (public_number c) = true ->
    Forall isbyte secret ->
    exists m spub,
      mask hash alg c s = Ok m /\ public_key s = Ok spub /\
      server_answer pub_ok hash (s, pub) secret alg =
        if Nat.eqb (length secret) (length m) then Ok (spub, toBase64 (xor_bytes secret m))
        else Raise ValueError.
  Proof.
    intros hash_bytes Hp Hc Hs Ep Eg Hpub Hok Hsec. unfold mask, server_answer, xor_secret. simpl.
    rewrite (get_shared_secret_of pub_ok s c) by (congruence || lia). rewrite (shared_sym c s) by auto.
    destruct (fix_btwoc_shared s c) as (b & Eb); [lia|]. simpl. rewrite Eb. simpl.
    destruct (longToBase64_Ok (public_number s)) as (spub & Es & _). { unfold public_number. lia. }
    exists (hash alg b), spub. split; auto. split; auto.
    rewrite fromBase64_toBase64 by auto. simpl. unfold strxor.
    destruct (Nat.eqb _ _); simpl; auto. unfold public_key. rewrite Es. auto.
  Qed.

  Lemma extractSecret_spec pub_ok hash c s spub data enc alg :
    (forall alg s, Forall isbyte (hash alg s)) ->
    (0 < dh_p s)%Z -> (0 <= dh_x c)%Z -> (0 <= dh_x s)%Z ->
    dh_p c = dh_p s -> dh_g c = dh_g s ->
    public_key s = Ok spub ->
    pub_ok (dh_p s) (dh_g s) (public_number s) = true ->
    fromBase64 enc = Ok data ->
    exists m,
      mask hash alg c s = Ok m /\
      extractSecret pub_ok hash c spub enc alg =
        if Nat.eqb (length data) (length m) then Ok (xor_bytes data m)
        else Raise ValueError.
  Proof.
    intros hash_bytes Hp Hc Hs Ep Eg Hpub Hok Henc. unfold mask, extractSecret, xor_secret.
    destruct (longToBase64_Ok (public_number s)) as (spub' & Es & Eb). { unfold public_number. lia. }
    unfold public_key in Hpub. rewrite Es in Hpub. inv Hpub. rewrite Eb, Henc. cbn [bind].
    rewrite (get_shared_secret_of pub_ok c s) by (auto; lia).
    destruct (fix_btwoc_shared c s) as (b & E'); [lia|]. cbn [bind]. rewrite E'. cbn [bind].
    exists (hash alg b). split; auto. unfold strxor.
    destruct (Nat.eqb _ _); cbn [bind]; auto. rewrite fromBase64_toBase64; auto.
    apply xor_bytes_bytes; auto. pose proof (fromBase64_out enc) as Ho. rewrite Henc in Ho. auto.
  Qed.

  (** The request fields rebuild the consumer's parameters at the server. *)
  Lemma request_parameters params_ok c pub mg y :
    (0 <= dh_p c)%Z -> (0 <= dh_g c)%Z -> (0 <= public_number c)%Z ->
    getRequest c = Ok (pub, mg) -> params_ok (dh_p c) (dh_g c) = true ->
    server_fromMessage params_ok (option_map fst mg) (option_map snd mg) (Some pub) y
      = Ok (mkDH (dh_p c) (dh_g c) y, pub) /\ public_key c = Ok pub.
  Proof.
    intros Hp Hg Hn H Hok.
    destruct (longToBase64_Ok _ Hn) as (t & E1 & E2).
    unfold getRequest, usingDefaultValues, parameters, public_key in *. rewrite E1 in *. cbn [bind] in H.
    destruct (longToBase64_Ok _ Hp) as (m & M1 & M2). destruct (longToBase64_Ok _ Hg) as (g & G1 & G2).
    rewrite M1, G1 in H. cbn [bind fst snd] in H.
    assert (exists b, fromBase64 t = Ok b) as (b & Eb).
    { unfold base64ToLong in E2. destruct (fromBase64 t); [eauto|discriminate]. }
    destruct (text_eqb m DEFAULT_DH_MODULUS && text_eqb g DEFAULT_DH_GENERATOR) eqn:D; inv H.
    - apply andb_prop in D as [D1 D2]. apply text_eqb_eq in D1, D2. subst. split; auto.
      cbn [option_map server_fromMessage otruthy orb]. unfold fromDefaults, DiffieHellman.
      rewrite M2, G2. cbn [bind]. rewrite Hok. cbn [bind]. rewrite Eb. auto.
    - split; auto. cbn [option_map server_fromMessage otruthy orb fst snd].
      assert (truthy m || truthy g = true) as ->.
      { destruct m; [discriminate|]. auto. }
      unfold DiffieHellman. rewrite M2, G2. cbn [bind]. rewrite Hok. cbn [bind]. rewrite Eb. auto.
  Qed.

  Lemma getRequest_Ok c : (0 <= dh_p c)%Z -> (0 <= dh_g c)%Z -> (0 <= public_number c)%Z ->
    exists r, getRequest c = Ok r.
  Proof.
    intros Hp Hg Hn. unfold getRequest, usingDefaultValues, parameters, public_key.
    destruct (longToBase64_Ok _ Hn) as (t & E1 & E2). destruct (longToBase64_Ok _ Hp) as (m & M1 & M2).
    destruct (longToBase64_Ok _ Hg) as (g & G1 & G2). rewrite E1, M1, G1. cbn [bind].
    destruct (_ && _); cbn [bind]; eauto.
  Qed.
