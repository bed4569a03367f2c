(** UTF-8: decoding inverts encoding, encoding is injective, and decoding only
    accepts encodings. *)
From Coq Require Import Lia ZifyBool ZifyN.
From Verif Require Import Py PyFacts Utf8.

Local Ltac Zify.zify_post_hook ::= Z.div_mod_to_equations.

Lemma decode_enc1 c b rest :
  enc1 c = Some b -> decode (b ++ rest) = (t <- decode rest ;; Ok (c :: t)).
Proof.
  unfold enc1. intros H.
  destruct (c <? 128) eqn:E1; [injection H as <-|].
  { simpl. rewrite E1. reflexivity. }
  destruct (c <? 2048) eqn:E2; [injection H as <-|].
  { cbn [decode app].
    replace (192 + c / 64 <? 128) with false by lia.
    replace (192 + c / 64 <? 194) with false by lia.
    replace (192 + c / 64 <? 224) with true by lia.
    replace (cont (128 + c mod 64)) with true by (unfold cont; lia).
    replace ((192 + c / 64 - 192) * 64 + (128 + c mod 64 - 128)) with c by lia.
    reflexivity. }
  destruct (c <? 65536) eqn:E3.
  { destruct ((55296 <=? c) && (c <=? 57343)) eqn:E4; [discriminate|]. injection H as <-.
    cbn [decode app].
    replace (224 + c / 4096 <? 128) with false by lia.
    replace (224 + c / 4096 <? 194) with false by lia.
    replace (224 + c / 4096 <? 224) with false by lia.
    replace (224 + c / 4096 <? 240) with true by lia.
    replace (cont (128 + c mod 64)) with true by (unfold cont; lia).
    replace (cont (128 + (c / 64) mod 64)) with true by (unfold cont; lia).
    replace ((224 + c / 4096 - 224) * 4096 + (128 + (c / 64) mod 64 - 128) * 64
             + (128 + c mod 64 - 128)) with c by lia.
    rewrite E4. replace (2048 <=? c) with true by lia. reflexivity. }
  destruct (c <? 1114112) eqn:E4; [injection H as <-|discriminate].
  cbn [decode app].
  replace (240 + c / 262144 <? 128) with false by lia.
  replace (240 + c / 262144 <? 194) with false by lia.
  replace (240 + c / 262144 <? 224) with false by lia.
  replace (240 + c / 262144 <? 240) with false by lia.
  replace (240 + c / 262144 <? 245) with true by lia.
  replace (cont (128 + c mod 64)) with true by (unfold cont; lia).
  replace (cont (128 + (c / 64) mod 64)) with true by (unfold cont; lia).
  replace (cont (128 + (c / 4096) mod 64)) with true by (unfold cont; lia).
  replace ((240 + c / 262144 - 240) * 262144 + (128 + (c / 4096) mod 64 - 128) * 4096
           + (128 + (c / 64) mod 64 - 128) * 64 + (128 + c mod 64 - 128)) with c by lia.
  replace (65536 <=? c) with true by lia. rewrite E4. reflexivity.
Qed.

Lemma decode_encode s b : encode s = Ok b -> decode b = Ok s.
Proof.
  revert b; induction s as [|c s IH]; simpl; intros b H.
  - injection H as <-. reflexivity.
  - destruct (enc1 c) as [bc|] eqn:E; [|discriminate]. binv H. injection H as <-.
    rewrite (decode_enc1 c) by auto. rewrite (IH a) by auto. reflexivity.
Qed.

Lemma encode_inj s t b : encode s = Ok b -> encode t = Ok b -> s = t.
Proof. intros H1 H2. apply decode_encode in H1, H2. congruence. Qed.

Lemma encode_app s t :
  encode (s ++ t) = (a <- encode s ;; b <- encode t ;; Ok (a ++ b)).
Proof.
  induction s as [|c s IH]; simpl.
  - destruct (encode t); reflexivity.
  - destruct (enc1 c); simpl; auto. rewrite IH.
    destruct (encode s); simpl; auto. destruct (encode t); simpl; auto.
    rewrite app_assoc. reflexivity.
Qed.

Lemma encode_Raise s e : encode s = Raise e -> e = UnicodeEncodeError.
Proof.
  induction s as [|c s IH]; simpl; [discriminate|].
  destruct (enc1 c); [|congruence]. destruct (encode s); simpl; [discriminate|]. auto.
Qed.

Lemma encode_ascii s : forallb (fun c => c <? 128) s = true -> encode s = Ok s.
Proof.
  induction s as [|c s IH]; simpl; auto. intros H. apply andb_prop in H as [H1 H2].
  unfold enc1. rewrite H1, IH by auto. reflexivity.
Qed.

Lemma encode_bytes s b : encode s = Ok b -> Forall (fun x => x < 256) b.
Proof.
  revert b; induction s as [|c s IH]; simpl; intros b H.
  - injection H as <-. constructor.
  - destruct (enc1 c) as [bc|] eqn:E; [|discriminate]. binv H. injection H as <-.
    apply Forall_app; split; [|apply IH; auto].
    unfold enc1 in E.
    destruct (c <? 128) eqn:E1; [injection E as <-; repeat constructor; lia|].
    destruct (c <? 2048) eqn:E2; [injection E as <-; repeat constructor; lia|].
    destruct (c <? 65536) eqn:E3.
    + destruct ((55296 <=? c) && (c <=? 57343)); [discriminate|].
      injection E as <-; repeat constructor; lia.
    + destruct (c <? 1114112) eqn:E4; [|discriminate]. injection E as <-; repeat constructor; lia.
Qed.

(** Only encodings decode: [decode] is a partial inverse on both sides. *)
Lemma encode_decode_len n : forall b s, (length b <= n)%nat -> decode b = Ok s -> encode s = Ok b.
Proof.
  induction n as [|n IH]; intros b s Hl H.
  { destruct b; simpl in *; [injection H as <-; reflexivity | lia]. }
  destruct b as [|a r]; [injection H as <-; reflexivity|]. simpl in Hl.
  cbn [decode] in H.
  destruct (a <? 128) eqn:E1.
  { binv H. injection H as <-. simpl. unfold enc1. rewrite E1.
    rewrite (IH r) by (auto; lia). reflexivity. }
  destruct (a <? 194) eqn:E2; [discriminate|].
  destruct (a <? 224) eqn:E3.
  { destruct r as [|b r]; [discriminate|]. destruct (cont b) eqn:Cb; [|discriminate].
    unfold cont in Cb. binv H. injection H as <-. cbn [encode].
    simpl in Hl. rewrite (IH r) by (auto; lia). unfold enc1.
    set (v := (a - 192) * 64 + (b - 128)).
    replace (v <? 128) with false by lia. replace (v <? 2048) with true by lia.
    replace (192 + v / 64) with a by lia. replace (128 + v mod 64) with b by lia. reflexivity. }
  destruct (a <? 240) eqn:E4.
  { destruct r as [|b [|c r]]; try discriminate.
    set (v := (a - 224) * 4096 + (b - 128) * 64 + (c - 128)) in *.
    destruct (cont b && cont c && (2048 <=? v) && negb ((55296 <=? v) && (v <=? 57343))) eqn:Cb; [|discriminate].
    unfold cont in Cb. binv H. injection H as <-. cbn [encode].
    simpl in Hl. rewrite (IH r) by (auto; lia). unfold enc1.
    replace (v <? 128) with false by lia. replace (v <? 2048) with false by lia.
    replace (v <? 65536) with true by lia.
    replace ((55296 <=? v) && (v <=? 57343)) with false by lia.
    replace (224 + v / 4096) with a by lia. replace (128 + (v / 64) mod 64) with b by lia.
    replace (128 + v mod 64) with c by lia. reflexivity. }
  destruct (a <? 245) eqn:E5; [|discriminate].
  destruct r as [|b [|c [|d r]]]; try discriminate.
  set (v := (a - 240) * 262144 + (b - 128) * 4096 + (c - 128) * 64 + (d - 128)) in *.
  destruct (cont b && cont c && cont d && (65536 <=? v) && (v <? 1114112)) eqn:Cb; [|discriminate].
  unfold cont in Cb. binv H. injection H as <-. cbn [encode].
  simpl in Hl. rewrite (IH r) by (auto; lia). unfold enc1.
  replace (v <? 128) with false by lia. replace (v <? 2048) with false by lia.
  replace (v <? 65536) with false by lia. replace (v <? 1114112) with true by lia.
  replace (240 + v / 262144) with a by lia. replace (128 + (v / 4096) mod 64) with b by lia.
  replace (128 + (v / 64) mod 64) with c by lia. replace (128 + v mod 64) with d by lia. reflexivity.
Qed.

Lemma encode_decode b s : decode b = Ok s -> encode s = Ok b.
Proof. apply (encode_decode_len (length b)). lia. Qed.
