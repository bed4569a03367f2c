(** Model of /repo/openid/dh.py and of the Diffie-Hellman sessions of
    /repo/openid/server/server.py:311-409 and
    /repo/openid/consumer/consumer.py:455-513.

    The cryptography package is outside the model: which parameters and public
    keys it accepts are the predicates [params_ok] and [pub_ok], the hash is the
    function [hash], its modular exponentiation is taken to be modular
    exponentiation and [exchange] to return the shared secret padded to the byte
    length of the modulus.  Private keys are explicit. *)
From Verif Require Import Py CryptUtil.

(** /repo/openid/constants.py:6-8. *)
Definition DEFAULT_DH_MODULUS : text :=
  u "ANz5OguIOXLsDhmYmsWizjEOHTdxfo2Vcbt2I3MYZuYe91ouJ4mLBX+YkcLiemOcPym2CBRYHNOyyjmG0mg3BVd9RcLn5S3IHHoXGHblzqdLFEi/368Ygo79JRnxTkXjgmY0rxlJ5bU1zIKaSDuKdiI+XUkKJX8Fvf8W8vsixYOr".
Definition DEFAULT_DH_GENERATOR : text := u "Ag==".

(** hashes.SHA1() / hashes.SHA256(). *)
Inductive hash_alg := SHA1 | SHA256.

(** dh.py:23-31 [strxor]. *)
Fixpoint xor_bytes (x y : bytes) : bytes :=
  match x, y with
  | a :: x', b :: y' => N.lxor a b :: xor_bytes x' y'
  | _, _ => []
  end.
Definition strxor (x y : bytes) : res bytes :=
  if Nat.eqb (List.length x) (List.length y) then Ok (xor_bytes x y) else Raise ValueError.

(** Big endian bytes of [n], exactly [k] of them (padding done by cryptography's
    [exchange]). *)
Fixpoint be_bytes (k : nat) (n : N) (acc : bytes) : bytes :=
  match k with O => acc | S k' => be_bytes k' (n / 256) (n mod 256 :: acc) end.
Definition byte_length (p : Z) : nat := N.to_nat ((N.size (Z.to_N p) + 7) / 8).

Record dh := mkDH { dh_p : Z; dh_g : Z; dh_x : Z }.

Section DH.
  Variable params_ok : Z -> Z -> bool.
  Variable pub_ok : Z -> Z -> Z -> bool.
  Variable hash : hash_alg -> bytes -> bytes.

  (** dh.py:37-54 [DiffieHellman.__init__] on base64 parameters; [x] is the
      private key that [generate_private_key] draws. *)
  Definition DiffieHellman (modulus generator : text) (x : Z) : res dh :=
    p <- base64ToLong modulus ;;
    g <- base64ToLong generator ;;
    if params_ok p g then Ok (mkDH p g x) else Raise ValueError.

  (** dh.py:56-59 [fromDefaults]. *)
  Definition fromDefaults (x : Z) : res dh := DiffieHellman DEFAULT_DH_MODULUS DEFAULT_DH_GENERATOR x.

  (** dh.py:79-88 [parameters]. *)
  Definition parameters (d : dh) : res (text * text) :=
    m <- longToBase64 (dh_p d) ;; g <- longToBase64 (dh_g d) ;; Ok (m, g).

  Definition public_number (d : dh) : Z := (dh_g d ^ dh_x d mod dh_p d)%Z.

  (** dh.py:99-105 [public_key]. *)
  Definition public_key (d : dh) : res text := longToBase64 (public_number d).

  (** dh.py:107-108 [usingDefaultValues]. *)
  Definition usingDefaultValues (d : dh) : res bool :=
    mg <- parameters d ;;
    Ok (text_eqb (fst mg) DEFAULT_DH_MODULUS && text_eqb (snd mg) DEFAULT_DH_GENERATOR).

  (** dh.py:120-128 [_get_shared_secret]. *)
  Definition get_shared_secret (d : dh) (public_key : text) : res bytes :=
    y <- base64ToLong public_key ;;
    if pub_ok (dh_p d) (dh_g d) y
    then Ok (be_bytes (byte_length (dh_p d)) (Z.to_N (y ^ dh_x d mod dh_p d)) [])
    else Raise ValueError.

  (** dh.py:141-160 [xor_secret]. *)
  Definition xor_secret (d : dh) (public_key secret : text) (algorithm : hash_alg) : res text :=
    dh_shared <- get_shared_secret d public_key ;;
    dh_shared <- fix_btwoc dh_shared ;;
    s <- fromBase64 secret ;;
    r <- strxor s (hash algorithm dh_shared) ;;
    Ok (toBase64 r).

  (** dh.py:110-118 [getSharedSecret] (deprecated): its argument is an integer,
      and [base64ToLong] asserts that it gets a string (oidutil.py:160). *)
  Definition getSharedSecret (d : dh) (composite : Z) : res Z := Raise AssertionError.

  (** consumer.py:475-482 [DiffieHellmanSHA1ConsumerSession.getRequest]: the
      fields dh_consumer_public, dh_modulus, dh_gen. *)
  Definition getRequest (d : dh) : res (text * option (text * text)) :=
    pub <- public_key d ;;
    dflt <- usingDefaultValues d ;;
    if (dflt : bool) then Ok (pub, None)
    else (mg <- parameters d ;; Ok (pub, Some mg)).

  (** server.py:353-392 [fromMessage] and 336-345 [__init__] as a function of the
      three message fields. *)
  Definition server_fromMessage (dh_modulus dh_gen dh_consumer_public : option text) (x : Z)
    : res (dh * text) :=
    match dh_modulus, dh_gen with
    | None, Some _ | Some _, None => Raise ServerProtocolError
    | _, _ =>
        d <- (if otruthy dh_modulus || otruthy dh_gen then
                match dh_modulus, dh_gen with
                | Some m, Some g => DiffieHellman m g x
                | _, _ => fromDefaults x            (* unreachable *)
                end
              else fromDefaults x) ;;
        match dh_consumer_public with
        | None => Raise ServerProtocolError
        | Some k => _ <- fromBase64 k ;; Ok (d, k)
        end
    end.

  (** server.py:394-403 [answer] (without the deprecated [hash_func]): the fields
      dh_server_public and enc_mac_key. *)
  Definition server_answer (s : dh * text) (secret : bytes) (algorithm : hash_alg) : res (text * text) :=
    mac_key <- xor_secret (fst s) (snd s) (toBase64 secret) algorithm ;;
    pub <- public_key (fst s) ;;
    Ok (pub, mac_key).

  (** consumer.py:484-494 [extractSecret] (without [hash_func]) on the values of
      the two fields. *)
  Definition extractSecret (d : dh) (dh_server_public enc_mac_key : text) (algorithm : hash_alg) : res bytes :=
    _ <- base64ToLong dh_server_public ;;
    _ <- fromBase64 enc_mac_key ;;
    r <- xor_secret d dh_server_public enc_mac_key algorithm ;;
    fromBase64 r.
End DH.
