(** C03, C04, C05, C63: base64, btwoc integers, Diffie-Hellman. *)
From Coq Require Import Lia ZifyBool ZifyN ZifyNat.
From Verif Require Import Py PyFacts CryptUtil CryptUtilFacts DH DHFacts.

(** ** Specification vocabulary *)
Definition is_bytes (s : list N) : Prop := forall b, In b s -> b < 256.
Definition base64_alphabet : text :=
  u "ABCDEFGHIJKLMNOPQRSTUVWXYZabcdefghijklmnopqrstuvwxyz0123456789+/".
(** Big endian value of a byte string. *)
Definition big_endian (s : bytes) : Z := fold_left (fun a b => (a * 256 + Z.of_N b)%Z) s 0%Z.
(** Bytewise exclusive or. *)
Definition xored (x m y : bytes) : Prop :=
  length y = length x /\ length m = length x /\ forall i, nth i y 0 = N.lxor (nth i x 0) (nth i m 0).

Lemma is_bytes_Forall s : is_bytes s <-> Forall isbyte s.
Proof. unfold is_bytes, isbyte. rewrite Forall_forall. tauto. Qed.

(** ** C03 *)
Theorem C03_base64_round_trip :
  forall b, is_bytes b -> fromBase64 (toBase64 b) = Ok b.
Proof. intros b H. apply fromBase64_toBase64, is_bytes_Forall; auto. Qed.
Print Assumptions C03_base64_round_trip.

Lemma b64char_In n : n < 64 -> In (b64char n) base64_alphabet.
Proof.
  intros H.
  assert (forall k, (k < 64)%nat -> In (b64char (N.of_nat k)) base64_alphabet) as K.
  { assert (forallb (fun k => memc (b64char (N.of_nat k)) base64_alphabet) (seq 0 64) = true) as F by (vm_compute; auto).
    intros k Hk. rewrite forallb_forall in F. apply memc_In, F, in_seq. lia. }
  replace n with (N.of_nat (N.to_nat n)) by lia. apply K. lia.
Qed.

Local Ltac Zify.zify_post_hook ::= Z.div_mod_to_equations.
Theorem C03_base64_output :
  forall b, is_bytes b ->
    exists body npad,
      toBase64 b = body ++ repeat 61 npad /\ (npad <= 2)%nat /\
      (forall c, In c body -> In c base64_alphabet) /\
      length (toBase64 b) = (4 * ((length b + 2) / 3))%nat.
Proof.
  intros b H.
  enough (exists body npad, toBase64 b = body ++ repeat 61 npad /\ (npad <= 2)%nat /\
      (forall c, In c body -> In c base64_alphabet)) as (body & npad & A & B & C).
  { exists body, npad. repeat split; auto. apply b2a_length. }
  apply is_bytes_Forall in H. unfold toBase64, isbyte in *. revert H.
  induction b as [|a|a b|a b c r IH] using list3_ind; intros H.
  - exists [], 0%nat. simpl. repeat split; auto. intros ? [].
  - inv H. exists [b64char (a / 4); b64char (a mod 4 * 16)], 2%nat. split; auto. split; auto.
    intros x [<-|[<-|[]]]; apply b64char_In; lia.
  - inv H. inv H3. exists [b64char (a / 4); b64char (a mod 4 * 16 + b / 16); b64char (b mod 16 * 4)], 1%nat.
    split; auto. split; auto. intros x [<-|[<-|[<-|[]]]]; apply b64char_In; lia.
  - inv H. inv H3. inv H4. destruct IH as (body & npad & A & B & C); auto.
    exists (b64char (a / 4) :: b64char (a mod 4 * 16 + b / 16) ::
            b64char (b mod 16 * 4 + c / 64) :: b64char (c mod 64) :: body), npad.
    split; [cbn [b2a_base64]; rewrite A; reflexivity|]. split; auto.
    intros x [<-|[<-|[<-|[<-|Hx]]]]; auto; apply b64char_In; lia.
Qed.
Print Assumptions C03_base64_output.

Theorem C03_base64_injective :
  forall a b, is_bytes a -> is_bytes b -> toBase64 a = toBase64 b -> a = b.
Proof.
  intros a b Ha Hb E. apply C03_base64_round_trip in Ha, Hb. rewrite E in Ha. congruence.
Qed.
Print Assumptions C03_base64_injective.

(** Decoding arbitrary text yields bytes or ValueError, nothing else. *)
Theorem C03_base64_decode_total :
  forall t, (exists b, fromBase64 t = Ok b /\ is_bytes b) \/ fromBase64 t = Raise ValueError.
Proof.
  intros t. pose proof (fromBase64_out t) as H. destruct (fromBase64 t) as [b|e].
  - left. exists b. rewrite is_bytes_Forall. auto.
  - right. congruence.
Qed.
Print Assumptions C03_base64_decode_total.

Example C03_example : is_bytes [0; 255; 128; 7] /\ toBase64 [0; 255; 128; 7] = u "AP+ABw==".
Proof. split; [|vm_compute; auto]. apply is_bytes_Forall. repeat constructor. Qed.

(** ** C04 *)
Lemma big_endian_be s : forall a, fold_left (fun a b => (a * 256 + Z.of_N b)%Z) s (Z.of_N a) = Z.of_N (be a s).
Proof.
  induction s as [|b s IH]; intros a; auto. cbn [fold_left be]. rewrite <- IH. f_equal. lia.
Qed.

Theorem C04_int_to_bytes :
  forall n, (0 <= n)%Z ->
    exists s, int_to_bytes n = Ok s /\ is_bytes s /\
              bytes_to_int s = Ok n /\                  (* reads back *)
              big_endian s = n /\                       (* big endian *)
              (exists x r, s = x :: r /\ x < 128) /\    (* sign bit clear *)
              (forall s', is_bytes s' -> big_endian s' = n ->      (* shortest *)
                          (exists x r, s' = x :: r /\ x < 128) -> (length s <= length s')%nat).
Proof.
  intros n Hn. destruct (int_to_bytes_spec n Hn) as (s & E & HF & Hbe & Hh & Hmin).
  exists s. split; auto. split; [apply is_bytes_Forall; auto|].
  assert (s <> []) as Hne by (intros ->; simpl in Hh; lia).
  split; [rewrite bytes_to_int_be; auto; congruence|].
  split; [unfold big_endian; change 0%Z with (Z.of_N 0); rewrite big_endian_be; auto|].
  split; [destruct s as [|x r]; [contradiction|]; exists x, r; auto|].
  intros s' HF' E' (x & r & -> & Hx). apply Hmin; auto; [apply is_bytes_Forall; auto|].
  unfold big_endian in E'. change 0%Z with (Z.of_N 0) in E'. rewrite big_endian_be in E'. auto.
Qed.
Print Assumptions C04_int_to_bytes.

Theorem C04_base64_ints :
  forall n, (0 <= n)%Z -> exists t, longToBase64 n = Ok t /\ base64ToLong t = Ok n.
Proof. exact longToBase64_Ok. Qed.
Print Assumptions C04_base64_ints.

Theorem C04_rejects :
  (forall n, (n < 0)%Z -> int_to_bytes n = Raise ValueError /\ longToBase64 n = Raise ValueError) /\
  bytes_to_int [] = Raise ValueError.
Proof.
  split; [|reflexivity]. intros n Hn. destruct n as [|p|p]; try lia.
  assert (int_to_bytes (Zneg p) = Raise ValueError) as E.
  { exact (f_equal (fun m => bind m fix_btwoc) (fromhex_neg p)). }
  split; auto. unfold longToBase64. rewrite E. auto.
Qed.
Print Assumptions C04_rejects.

Example C04_example : int_to_bytes 128 = Ok [0; 128] /\ int_to_bytes 0 = Ok [0] /\ longToBase64 65537 = Ok (u "AQAB").
Proof. vm_compute. auto. Qed.

(** ** C05 *)
Lemma xored_spec x : forall m, length m = length x -> xored x m (xor_bytes x m).
Proof.
  unfold xored. intros m H. split; [apply xor_bytes_length; auto|]. split; auto.
  revert m H; induction x as [|a x IH]; intros [|b m] H i; try discriminate.
  - destruct i; reflexivity.
  - destruct i as [|i]; auto. simpl. apply IH. auto.
Qed.

(** Everything from the consumer's request fields to its extracted secret.  [c]
    is the consumer's key, [y] the server's private exponent; the two [pub_ok]
    and the [params_ok] hypotheses say the cryptography library accepts the keys. *)
Theorem C05_dh_exchange :
  forall params_ok pub_ok hash (c : dh) (y : Z) secret alg pub mg,
    (forall a s, is_bytes (hash a s)) ->
    (0 < dh_p c)%Z -> (0 <= dh_g c)%Z -> (0 <= dh_x c)%Z -> (0 <= y)%Z ->
    params_ok (dh_p c) (dh_g c) = true ->
    pub_ok (dh_p c) (dh_g c) (dh_g c ^ dh_x c mod dh_p c)%Z = true ->
    pub_ok (dh_p c) (dh_g c) (dh_g c ^ y mod dh_p c)%Z = true ->
    is_bytes secret ->
    getRequest c = Ok (pub, mg) ->
    exists session digest,
      server_fromMessage params_ok (option_map fst mg) (option_map snd mg) (Some pub) y = Ok session /\
      (exists input, digest = hash alg input) /\
      (length secret = length digest ->
         exists spub enc masked,
           server_answer pub_ok hash session secret alg = Ok (spub, enc) /\
           enc = toBase64 masked /\ xored secret digest masked /\
           extractSecret pub_ok hash c spub enc alg = Ok secret) /\
      (length secret <> length digest ->
         server_answer pub_ok hash session secret alg = Raise ValueError) /\
      (forall spub wrong data,
         public_key (fst session) = Ok spub -> fromBase64 wrong = Ok data -> length data <> length digest ->
         extractSecret pub_ok hash c spub wrong alg = Raise ValueError).
Proof.
  intros params_ok pub_ok hash c y secret alg pub mg Hh Hp Hg Hx Hy Hpar Hpc Hps Hsec Hreq.
  assert (forall a s, Forall isbyte (hash a s)) as Hh' by (intros; apply is_bytes_Forall; auto).
  apply is_bytes_Forall in Hsec.
  set (s := mkDH (dh_p c) (dh_g c) y).
  assert (0 <= public_number c)%Z as Hn by (unfold public_number; lia).
  assert (0 <= dh_p c)%Z as Hp0 by lia.
  destruct (request_parameters params_ok c pub mg y) as [E1 E2]; auto.
  destruct (server_answer_spec pub_ok hash c s pub secret alg) as (m & spub & M & SP & SA); auto.
  exists (s, pub), m. split; auto.
  split. { unfold mask in M. binv M. injection M as <-. eauto. }
  assert (forall data enc, fromBase64 enc = Ok data ->
    extractSecret pub_ok hash c spub enc alg =
      if Nat.eqb (length data) (length m) then Ok (xor_bytes data m) else Raise ValueError) as EX.
  { intros data enc He. destruct (extractSecret_spec pub_ok hash c s spub data enc alg) as (m' & M' & EX); auto.
    rewrite M in M'. injection M' as <-. exact EX. }
  split; [|split].
  - intros L. exists spub, (toBase64 (xor_bytes secret m)), (xor_bytes secret m).
    rewrite SA. apply Nat.eqb_eq in L as L'. rewrite L'. split; auto. split; auto.
    split; [apply xored_spec; auto|].
    assert (Forall isbyte m) as Hm. { unfold mask in M. binv M. injection M as <-. apply Hh'. }
    rewrite (EX (xor_bytes secret m)).
    + rewrite xor_bytes_length by auto. rewrite L', xor_bytes_invol; auto.
    + apply fromBase64_toBase64, xor_bytes_bytes; auto.
  - intros L. rewrite SA. apply Nat.eqb_neq in L. rewrite L. auto.
  - intros spub' wrong data HS Hw L. cbn [fst] in HS. rewrite SP in HS. injection HS as <-.
    rewrite (EX data) by auto. apply Nat.eqb_neq in L. rewrite L. auto.
Qed.
Print Assumptions C05_dh_exchange.

(** The consumer's request fields always exist. *)
Theorem C05_dh_request_exists :
  forall c, (0 < dh_p c)%Z -> (0 <= dh_g c)%Z -> exists pub mg, getRequest c = Ok (pub, mg).
Proof.
  intros c Hp Hg. destruct (getRequest_Ok c) as ([pub mg] & E); eauto; [lia|]. unfold public_number. lia.
Qed.
Print Assumptions C05_dh_request_exists.

Theorem C05_strxor :
  forall x y, (length x = length y -> exists z, strxor x y = Ok z /\ strxor z y = Ok x) /\
              (length x <> length y -> strxor x y = Raise ValueError).
Proof.
  intros x y. unfold strxor. split; intros H.
  - apply Nat.eqb_eq in H as H'. rewrite H'. eexists; split; eauto. rewrite xor_bytes_length by auto.
    rewrite H', xor_bytes_invol; auto.
  - apply Nat.eqb_neq in H. rewrite H. auto.
Qed.
Print Assumptions C05_strxor.

(** A toy hash of fixed length 2 used by the examples. *)
Definition toy_hash (a : hash_alg) (s : bytes) : bytes := [fold_left N.lxor s 7 mod 256; len s mod 256].
Example C05_example :
  let c := mkDH 65521 7 13 in
  exists pub mg s spub enc,
    getRequest c = Ok (pub, mg) /\
    server_fromMessage (fun _ _ => true) (option_map fst mg) (option_map snd mg) (Some pub) 21 = Ok s /\
    server_answer (fun _ _ _ => true) toy_hash s [17; 34] SHA1 = Ok (spub, enc) /\
    extractSecret (fun _ _ _ => true) toy_hash c spub enc SHA1 = Ok [17; 34] /\
    enc <> toBase64 [17; 34].
Proof.
  do 5 eexists. split; [vm_compute; reflexivity|]. split; [vm_compute; reflexivity|].
  split; [vm_compute; reflexivity|]. split; vm_compute; [reflexivity | discriminate].
Qed.

(** ** C63: the specification asks that the mask be H(btwoc(shared secret)), btwoc
    being the shortest encoding (C04).  The code hashes the secret padded to the
    length of the modulus, which differs when the shared number is small. *)
Theorem C63_mask_hashes_btwoc_refuted :
  exists d pub number padded b,
    get_shared_secret (fun _ _ _ => true) d pub = Ok padded /\
    bytes_to_int padded = Ok number /\
    int_to_bytes number = Ok b /\
    fix_btwoc padded <> Ok b.
Proof.
  exists (mkDH 65537 3 1), (u "Ag=="). do 3 eexists.
  split; [vm_compute; reflexivity|]. split; [vm_compute; reflexivity|]. split; [vm_compute; reflexivity|].
  vm_compute. discriminate.
Qed.
Print Assumptions C63_mask_hashes_btwoc_refuted.

(** It does hash btwoc of the number whenever the shared number fills the modulus
    length (its top byte is not zero). *)
Lemma be_bytes_be k : forall n acc, be 0 (be_bytes k n acc) = (n mod 256 ^ N.of_nat k) * 256 ^ len acc + be 0 acc.
Proof.
  unfold len. induction k as [|k IH]; intros n acc.
  - cbn [be_bytes]. change (256 ^ N.of_nat 0) with 1. rewrite N.mod_1_r. lia.
  - cbn [be_bytes]. rewrite IH. cbn [length be].
    rewrite (be_shift acc (0 * 256 + n mod 256)).
    rewrite !Nat2N.inj_succ, !N.pow_succ_r'.
    rewrite (N.mod_mul_r n 256) by (try apply N.pow_nonzero; lia). lia.
Qed.

Theorem C63_mask_hashes_btwoc_partial :
  forall pub_ok d pub number padded b,
    get_shared_secret pub_ok d pub = Ok padded ->
    bytes_to_int padded = Ok number ->
    int_to_bytes number = Ok b ->
    hd 0 padded <> 0 ->
    fix_btwoc padded = Ok b.
Proof.
  intros pub_ok d pub number padded b H1 H2 H3 Hd.
  assert (Forall isbyte padded) as HF.
  { unfold get_shared_secret in H1. binv H1. destruct (pub_ok _ _ _); [|discriminate]. inv H1.
    apply be_bytes_bytes. constructor. }
  destruct padded as [|x r]; [contradiction|]. cbn [hd] in Hd.
  rewrite bytes_to_int_be in H2 by (auto; discriminate). injection H2 as <-.
  assert (x * 256 ^ N.of_nat (length r) <= be 0 (x :: r)) as BL by apply be_lower.
  assert (256 ^ N.of_nat (length r) <> 0) as P0 by (apply N.pow_nonzero; lia).
  destruct (be 0 (x :: r)) as [|p] eqn:Ebe; [nia|]. 
  destruct (int_to_bytes_raw p) as (s & E & HFs & Hbe & Hh).
  assert (int_to_bytes (Zpos p) = fix_btwoc s) as EI by exact (f_equal (fun m => bind m fix_btwoc) E).
  change (be (0 * 256 + x) r) with (be 0 (x :: r)) in H3. rewrite Ebe in H3.
  change (Z.of_N (N.pos p)) with (Zpos p) in H3. rewrite EI in H3. rewrite <- H3. f_equal.
  (* two big endian encodings of one number without leading zero are equal *)
  clear -HF Hd Ebe HFs Hbe Hh.
  assert (forall a b, Forall isbyte a -> Forall isbyte b -> length a = length b -> be 0 a = be 0 b -> a = b) as U.
  { clear. induction a as [|x a IH]; intros [|y b] Ha Hb L E; try discriminate; auto.
    inv Ha. inv Hb. injection L as L. cbn [be] in E. rewrite (be_shift a), (be_shift b), L in E.
    pose proof (be_bound a H2) as B1. pose proof (be_bound b H4) as B2. rewrite L in B1.
    assert (x = y) by nia. subst. f_equal. apply IH; auto. nia. }
  destruct s as [|y s]; [contradiction|]. cbn [hd] in Hh.
  apply U; auto; [|congruence].
  pose proof (be_bound _ HF) as B1. pose proof (be_bound _ HFs) as B2.
  pose proof (be_lower x r) as L1. pose proof (be_lower y s) as L2.
  rewrite Ebe in *. rewrite Hbe in *. cbn [length] in *.
  destruct (Nat.lt_trichotomy (length r) (length s)) as [G|[G|G]]; [|congruence|]; exfalso.
  - assert (256 ^ N.of_nat (S (length r)) <= 256 ^ N.of_nat (length s)) by (apply N.pow_le_mono_r; lia). nia.
  - assert (256 ^ N.of_nat (S (length s)) <= 256 ^ N.of_nat (length r)) by (apply N.pow_le_mono_r; lia). nia.
Qed.
Print Assumptions C63_mask_hashes_btwoc_partial.

Example C63_partial_example :
  exists padded, get_shared_secret (fun _ _ _ => true) (mkDH 65521 3 2) (u "IQ==") = Ok padded /\ hd 0 padded <> 0.
Proof. eexists. split; [vm_compute; reflexivity|]. vm_compute. discriminate. Qed.

(** ** C74: which association requests start a Diffie-Hellman session *)
Definition default_group (m g : option text) : Prop :=
  (m = None /\ g = None) \/ (m = Some [] /\ g = Some []).
Definition own_group (params_ok : Z -> Z -> bool) (m g : option text) (p q : Z) : Prop :=
  exists m' g', m = Some m' /\ g = Some g' /\ (m' <> [] \/ g' <> []) /\
    base64ToLong m' = Ok p /\ base64ToLong g' = Ok q /\ params_ok p q = true.

Theorem C74_server_session_parameters :
  forall params_ok m g k x,
    (* one parameter without the other *)
    ((exists t, (m = None /\ g = Some t) \/ (m = Some t /\ g = None)) ->
     server_fromMessage params_ok m g k x = Raise ServerProtocolError) /\
    (* accepted exactly with a decodable public key and a group *)
    (forall d k', server_fromMessage params_ok m g k x = Ok (d, k') <->
       k = Some k' /\ (exists b, fromBase64 k' = Ok b) /\
       ((default_group m g /\ fromDefaults params_ok x = Ok d) \/
        (exists p q, own_group params_ok m g p q /\ d = mkDH p q x))).
Proof.
  intros params_ok m g k x. split.
  - intros [t [[-> ->]|[-> ->]]]; reflexivity.
  - intros d k'. unfold server_fromMessage.
    assert (F : forall r : res dh,
      (d0 <- r ;; match k with None => Raise ServerProtocolError | Some k0 => _ <- fromBase64 k0 ;; Ok (d0, k0) end) = Ok (d, k')
      <-> k = Some k' /\ (exists b, fromBase64 k' = Ok b) /\ r = Ok d).
    { intros [d0|e]; cbn [bind].
      - destruct k as [k0|].
        + destruct (fromBase64 k0) as [b|e] eqn:E; cbn [bind]; split.
          * intros X. injection X as -> ->. eauto.
          * intros (X & _ & Y). injection X as ->. injection Y as ->. reflexivity.
          * discriminate.
          * intros (X & [b Hb] & _). injection X as ->. congruence.
        + split; [discriminate|]. intros (X & _). discriminate.
      - split; [discriminate|]. intros (_ & _ & X). discriminate. }
    assert (O : forall m' g', (m' <> [] \/ g' <> []) ->
      DiffieHellman params_ok m' g' x = Ok d <-> exists p q, own_group params_ok (Some m') (Some g') p q /\ d = mkDH p q x).
    { intros m' g' NE. unfold DiffieHellman. split.
      - intros H. binv H. binv H. destruct (params_ok _ _) eqn:P; [|discriminate]. injection H as <-.
        do 2 eexists. split; [|reflexivity]. exists m', g'. auto 8.
      - intros (p & q & (m1 & g1 & X & Y & _ & P1 & P2 & P3) & ->). injection X as <-. injection Y as <-.
        rewrite P1. cbn [bind]. rewrite P2. cbn [bind]. rewrite P3. reflexivity. }
    destruct m as [m|], g as [g|]; [| | |].
    + rewrite F. cbn [otruthy]. destruct (truthy m || truthy g) eqn:T.
      * assert (NE : m <> [] \/ g <> []) by (destruct m; [destruct g; [discriminate T|right; discriminate]|left; discriminate]).
        rewrite (O m g NE). split.
        -- intros (A & B & C). auto.
        -- intros (A & B & [[[[X _]|[X Y]] _]|C]); [discriminate| |auto].
           injection X as ->. injection Y as ->. destruct NE as [[]|[]]; reflexivity.
      * assert (m = [] /\ g = []) as [-> ->] by (destruct m; [destruct g; [auto|discriminate T]|discriminate T]).
        split.
        -- intros (A & B & C). split; [exact A|]. split; [exact B|]. left. split; [right; auto|exact C].
        -- intros (A & B & [[_ C]|(p & q & (m1 & g1 & X & Y & NE & _) & _)]); [auto|].
           injection X as <-. injection Y as <-. destruct NE as [[]|[]]; reflexivity.
    + split; [discriminate|]. intros (_ & _ & [[[[X Y]|[X Y]] _]|(p & q & (m1 & g1 & X & Y & _) & _)]); discriminate.
    + split; [discriminate|]. intros (_ & _ & [[[[X Y]|[X Y]] _]|(p & q & (m1 & g1 & X & Y & _) & _)]); discriminate.
    + rewrite F. cbn [otruthy orb]. split.
      * intros (A & B & C). split; [exact A|]. split; [exact B|]. left. split; [left; auto|exact C].
      * intros (A & B & [[_ C]|(p & q & (m1 & g1 & X & _) & _)]); [auto|discriminate].
Qed.
Print Assumptions C74_server_session_parameters.

Example C74_example :
  server_fromMessage (fun _ _ => true) (Some (u "Fw==")) (Some (u "BQ==")) (Some (u "Cg==")) 6 = Ok (mkDH 23 5 6, u "Cg==") /\
  server_fromMessage (fun _ _ => true) (Some (u "Fw==")) None (Some (u "Cg==")) 6 = Raise ServerProtocolError /\
  server_fromMessage (fun _ _ => true) (Some (u "Fw==")) (Some (u "BQ==")) (Some (u "C")) 6 = Raise ValueError.
Proof. split; [vm_compute; reflexivity|]. split; [vm_compute; reflexivity|vm_compute; reflexivity]. Qed.
