(** Proofs about [CryptUtil]. *)
From Coq Require Import Lia ZifyBool ZifyN ZifyNat.
From Verif Require Import Py PyFacts CryptUtil.
Local Ltac Zify.zify_post_hook ::= Z.div_mod_to_equations.

Definition isbyte (b : N) : Prop := b < 256.

Lemma b64char_val n : n < 64 -> b64val (b64char n) = Some n.
Proof.
  intros H. unfold b64char, b64val.
  destruct (n <? 26) eqn:E1; [|destruct (n <? 52) eqn:E2; [|destruct (n <? 62) eqn:E3; [|destruct (n =? 62) eqn:E4]]];
  repeat match goal with |- context [if ?b then _ else _] => destruct b eqn:?; try lia end; f_equal; lia.
Qed.
Lemma b64char_pad n : n < 64 -> b64char n =? pad = false.
Proof.
  intros H. unfold b64char, pad.
  repeat match goal with |- context [if ?b then _ else _] => destruct b eqn:?; try lia end.
Qed.
Lemma b64char_ascii n : n < 64 -> b64char n <? 128 = true.
Proof.
  intros H. unfold b64char.
  repeat match goal with |- context [if ?b then _ else _] => destruct b eqn:?; try lia end.
Qed.

Lemma list3_ind {A} (P : list A -> Prop) :
  P [] -> (forall a, P [a]) -> (forall a b, P [a; b]) ->
  (forall a b c r, P r -> P (a :: b :: c :: r)) -> forall l, P l.
Proof.
  intros H0 H1 H2 H3. fix F 1. intros [|a [|b [|c r]]]; [exact H0|exact (H1 a)|exact (H2 a b)|exact (H3 a b c r (F r))].
Qed.

Local Ltac b64step :=
  cbn [a2b_loop]; rewrite b64char_pad by lia; rewrite b64char_val by lia; cbn [N.eqb Pos.eqb].

Lemma a2b_b2a s : Forall isbyte s -> a2b_loop 0 0 0 (b2a_base64 s) = Ok s.
Proof.
  unfold isbyte. induction s as [|a|a b|a b c r IH] using list3_ind; intros H; auto.
  - inv H. cbn [b2a_base64]. b64step.
    change (0 =? 0) with true. b64step. change (1 =? 0) with false; change (1 =? 1) with true. cbv iota.
    cbn [a2b_loop]. change (pad =? pad) with true. cbv iota.
    change (2 <=? 2) with true. change (4 <=? 2 + (0 + 1)) with false. cbv iota. 
    change (2 <=? 2) with true. change (4 <=? 2 + (0 + 1 + 1)) with true. cbv iota. cbn [bind].
    f_equal. f_equal. lia.
  - inv H. inv H3. cbn [b2a_base64]. b64step. change (0 =? 0) with true. b64step.
    change (1 =? 0) with false; change (1 =? 1) with true. cbv iota.
    b64step. change (2 =? 0) with false; change (2 =? 1) with false; change (2 =? 2) with true. cbv iota.
    cbn [a2b_loop]. change (pad =? pad) with true. cbv iota.
    change (2 <=? 3) with true. change (4 <=? 3 + (0 + 1)) with true. cbv iota. cbn [bind].
    f_equal. f_equal; [lia|]. f_equal. lia.
  - inv H. inv H3. inv H4. cbn [b2a_base64]. b64step. change (0 =? 0) with true. b64step.
    change (1 =? 0) with false; change (1 =? 1) with true. cbv iota.
    b64step. change (2 =? 0) with false; change (2 =? 1) with false; change (2 =? 2) with true. cbv iota.
    b64step. change (3 =? 0) with false; change (3 =? 1) with false; change (3 =? 2) with false. cbv iota.
    rewrite IH by auto. cbn [bind]. f_equal. f_equal; [lia|]. f_equal; [lia|]. f_equal. lia.
Qed.

Lemma b2a_ascii s : Forall isbyte s -> forallb (fun c => c <? 128) (b2a_base64 s) = true.
Proof.
  unfold isbyte. induction s as [|a|a b|a b c r IH] using list3_ind; intros H; auto.
  - inv H. cbn [b2a_base64 forallb]. rewrite !b64char_ascii by lia. reflexivity.
  - inv H. inv H3. cbn [b2a_base64 forallb]. rewrite !b64char_ascii by lia. reflexivity.
  - inv H. inv H3. inv H4. cbn [b2a_base64 forallb]. rewrite !b64char_ascii by lia. rewrite IH by auto. reflexivity.
Qed.

Lemma fromBase64_toBase64 s : Forall isbyte s -> fromBase64 (toBase64 s) = Ok s.
Proof. intros H. unfold fromBase64, toBase64. rewrite b2a_ascii by auto. apply a2b_b2a; auto. Qed.

Lemma b2a_length s : List.length (b2a_base64 s) = (4 * ((List.length s + 2) / 3))%nat.
Proof.
  induction s as [|a|a b|a b c r IH] using list3_ind; auto.
  cbn [b2a_base64 List.length]. rewrite IH.
  replace (S (S (S (length r))) + 2)%nat with (1 * 3 + (length r + 2))%nat by lia.
  rewrite Nat.div_add_l by lia. lia.
Qed.

(** Decoding only ever produces bytes and only ever raises ValueError. *)
Lemma b64val_lt c v : b64val c = Some v -> v < 64.
Proof.
  unfold b64val. repeat match goal with |- context [if ?b then _ else _] => destruct b eqn:? end;
  intros H; inv H; lia.
Qed.
Lemma a2b_out s : forall q l p,
  (q = 0 \/ (q = 1 /\ l < 64) \/ (q = 2 /\ l < 16) \/ (q = 3 /\ l < 4)) ->
  match a2b_loop q l p s with Ok b => Forall isbyte b | Raise e => e = ValueError end.
Proof.
  unfold isbyte. induction s as [|c s IH]; intros q l p Hq.
  - cbn [a2b_loop]. destruct (q =? 0); auto.
  - cbn [a2b_loop]. destruct (c =? pad).
    { destruct (2 <=? q); [|apply IH; auto]. destruct (4 <=? q + (p + 1)); [constructor|apply IH; auto]. }
    destruct (b64val c) as [v|] eqn:V; [|apply IH; auto]. apply b64val_lt in V.
    destruct (q =? 0) eqn:E0; [apply IH; lia|].
    destruct (q =? 1) eqn:E1; [|destruct (q =? 2) eqn:E2].
    + specialize (IH 2 (v mod 16) 0 ltac:(lia)). destruct (a2b_loop 2 (v mod 16) 0 s); cbn [bind]; auto.
      constructor; auto. lia.
    + specialize (IH 3 (v mod 4) 0 ltac:(lia)). destruct (a2b_loop 3 (v mod 4) 0 s); cbn [bind]; auto.
      constructor; auto. lia.
    + specialize (IH 0 0 0 ltac:(lia)). destruct (a2b_loop 0 0 0 s); cbn [bind]; auto.
      constructor; auto. lia.
Qed.
Lemma fromBase64_out s :
  match fromBase64 s with Ok b => Forall isbyte b | Raise e => e = ValueError end.
Proof. unfold fromBase64. destruct (forallb _ s); auto. apply a2b_out. auto. Qed.

(** ** Hexadecimal *)
Lemma hexval_low n : n < 16 -> hexval (hexlow n) = Some n.
Proof.
  intros H. unfold hexlow, hexval. destruct (n <? 10) eqn:E;
  repeat match goal with |- context [if ?b then _ else _] => destruct b eqn:?; try lia end; f_equal; lia.
Qed.

(** Big endian value. *)
Fixpoint be (acc : N) (s : bytes) : N := match s with [] => acc | b :: r => be (acc * 256 + b) r end.

Lemma hex_value_hexlify s : Forall isbyte s -> forall acc, hex_value acc (hexlify s) = Ok (be acc s).
Proof.
  unfold isbyte. induction 1 as [|b s Hb HF IH]; intros acc; auto.
  cbn [hexlify flat_map app]. fold (hexlify s). cbn [hex_value]. rewrite !hexval_low by lia.
  cbn [be]. rewrite IH. f_equal. f_equal. lia.
Qed.

Lemma bytes_to_int_be s : Forall isbyte s -> s <> [] -> bytes_to_int s = Ok (Z.of_N (be 0 s)).
Proof.
  intros HF Hs. unfold bytes_to_int, int16. destruct s as [|b s]; [contradiction|].
  assert (hexlify (b :: s) <> []) as Hne by discriminate.
  destruct (hexlify (b :: s)) eqn:E; [contradiction|]. rewrite <- E, hex_value_hexlify by auto. reflexivity.
Qed.

(** [hex_digits] written base 16. *)
Definition isnib (b : N) : Prop := b < 16.
Fixpoint nibs (fuel : nat) (n : N) (acc : list N) : list N :=
  match fuel with
  | O => acc
  | S f => if n <? 16 then n :: acc else nibs f (n / 16) (n mod 16 :: acc)
  end.
Lemma hex_digits_nibs f : forall n acc, hex_digits f n (map hexlow acc) = map hexlow (nibs f n acc).
Proof.
  induction f as [|f IH]; intros n acc; auto. cbn [hex_digits nibs].
  destruct (n <? 16); auto. apply (IH (n / 16) (n mod 16 :: acc)).
Qed.
Fixpoint be16 (acc : N) (s : list N) : N := match s with [] => acc | b :: r => be16 (acc * 16 + b) r end.

Lemma nibs_spec f : forall n acc, n < 16 ^ N.of_nat f -> (f <> 0)%nat -> Forall isnib acc ->
  Forall isnib (nibs f n acc) /\ (forall a, be16 a (nibs f n acc) = be16 (a * 16 ^ (N.of_nat (length (nibs f n acc) - length acc)) + n) acc)
  /\ (length (nibs f n acc) > length acc)%nat /\ (n <> 0 -> hd 0 (nibs f n acc) <> 0)
  /\ (n = 0 -> nibs f n acc = 0 :: acc).
Proof.
  induction f as [|f IH]; intros n acc Hn Hf HF; [lia|]. cbn [nibs].
  destruct (n <? 16) eqn:E.
  - split; [constructor; auto; unfold isnib; lia|]. split; [|split; [cbn [length]; lia|split; [cbn [hd]; auto|intros ->; auto]]].
    intros a. cbn [be16 length]. replace (S (length acc) - length acc)%nat with 1%nat by lia.
    change (16 ^ N.of_nat 1) with 16. auto.
  - assert (16 ^ N.of_nat (S f) = 16 * 16 ^ N.of_nat f) as P.
    { rewrite Nat2N.inj_succ, N.pow_succ_r'. auto. }
    rewrite P in Hn.
    assert (f <> 0)%nat as Hf'. { intros ->. change (16 ^ N.of_nat 0) with 1 in Hn. lia. }
    destruct (IH (n / 16) (n mod 16 :: acc)) as (A & B & C & D & _); auto.
    { apply N.div_lt_upper_bound; lia. }
    { constructor; auto. unfold isnib. lia. }
    split; auto. split; [|split; [cbn [length] in C; lia|split; [intros; apply D; lia|lia]]].
    intros a. rewrite B. cbn [be16 length] in *. 
    set (L := length (nibs f (n / 16) (n mod 16 :: acc))) in *.
    f_equal. replace (L - length acc)%nat with (S (L - S (length acc)))%nat by lia.
    rewrite Nat2N.inj_succ, N.pow_succ_r'. lia.
Qed.

(** Pairing nibbles into bytes. *)
Fixpoint pairs (s : list N) : bytes :=
  match s with a :: b :: r => (a * 16 + b) :: pairs r | _ => [] end.
Lemma list2_ind {A} (P : list A -> Prop) :
  P [] -> (forall a, P [a]) -> (forall a b r, P r -> P (a :: b :: r)) -> forall l, P l.
Proof. intros H0 H1 H2. fix F 1. intros [|a [|b r]]; [exact H0|exact (H1 a)|exact (H2 a b r (F r))]. Qed.

Lemma fromhex_pairs s : Forall isnib s -> Nat.odd (length s) = false -> fromhex (map hexlow s) = Ok (pairs s).
Proof.
  unfold isnib. induction s as [|a|a b r IH] using list2_ind; intros HF Ho; auto; [discriminate|].
  inv HF. inv H2. cbn [map fromhex]. rewrite !hexval_low by lia. rewrite IH by auto. reflexivity.
Qed.
Lemma pairs_bytes s : Forall isnib s -> Forall isbyte (pairs s).
Proof.
  unfold isnib, isbyte. induction s as [|a|a b r IH] using list2_ind; intros HF; try constructor;
  inv HF; inv H2; [lia|auto].
Qed.
Lemma be_pairs s : Nat.odd (length s) = false -> forall a, be a (pairs s) = be16 a s.
Proof.
  induction s as [|x|x y r IH] using list2_ind; intros Ho a; auto; [discriminate|].
  cbn [pairs be be16]. rewrite IH by auto. f_equal. lia.
Qed.

Lemma odd_S n : Nat.odd (S n) = negb (Nat.odd n).
Proof. rewrite Nat.odd_succ, <- Nat.negb_odd. auto. Qed.

Lemma pos_size_bound p : Npos p < 16 ^ N.of_nat (Pos.size_nat p).
Proof.
  induction p as [p IH|p IH|]; cbn [Pos.size_nat]; try rewrite Nat2N.inj_succ, N.pow_succ_r'; lia.
Qed.

(** Minimal big endian bytes. *)
Lemma int_to_bytes_raw p :
  exists s, fromhex (let h := hex_of_Z (Zpos p) in if Nat.odd (length h) then 48 :: h else h) = Ok s /\
            Forall isbyte s /\ be 0 s = Npos p /\ hd 0 s <> 0.
Proof.
  assert (hex_of_Z (Zpos p) = map hexlow (nibs (Pos.size_nat p) (Npos p) [])) as ->.
  { unfold hex_of_Z. apply (hex_digits_nibs _ _ []). }
  pose proof (pos_size_bound p) as Hb.
  assert (Pos.size_nat p <> 0%nat) as Hs by (destruct p; discriminate).
  destruct (nibs_spec _ _ [] Hb Hs) as (A & B & C & D & _); [constructor|].
  set (ns := nibs (Pos.size_nat p) (Npos p) []) in *. specialize (D ltac:(discriminate)).
  specialize (B 0). rewrite N.mul_0_l, N.add_0_l in B. cbn [be16] in B.
  cbv zeta. rewrite map_length. destruct (Nat.odd (length ns)) eqn:O.
  - change (48 :: map hexlow ns) with (map hexlow (0 :: ns)).
    assert (Forall isnib (0 :: ns)) as A' by (constructor; auto; reflexivity).
    assert (Nat.odd (length (0 :: ns)) = false) as O'.
    { cbn [length]. rewrite odd_S, O. reflexivity. }
    exists (pairs (0 :: ns)). split; [apply fromhex_pairs; auto|]. split; [apply pairs_bytes; auto|].
    rewrite be_pairs by auto. split; [exact B|].
    destruct ns as [|n1 ns]; [cbn in C; lia|]. cbn in D |- *. lia.
  - exists (pairs ns). split; [apply fromhex_pairs; auto|]. split; [apply pairs_bytes; auto|].
    rewrite be_pairs by auto. split; [exact B|].
    destruct ns as [|n1 [|n2 ns]]; [cbn in C; lia|discriminate|]. cbn in D |- *. lia.
Qed.

Lemma be_cons0 s : be 0 (0 :: s) = be 0 s.
Proof. reflexivity. Qed.

Lemma be_shift s : forall a, be a s = a * 256 ^ N.of_nat (length s) + be 0 s.
Proof.
  induction s as [|b s IH]; intros a.
  - cbn [be length]. change (256 ^ N.of_nat 0) with 1. lia.
  - cbn [be length]. rewrite (IH (a * 256 + b)), (IH (0 * 256 + b)), Nat2N.inj_succ, N.pow_succ_r'. lia.
Qed.
Lemma be_bound s : Forall isbyte s -> be 0 s < 256 ^ N.of_nat (length s).
Proof.
  unfold isbyte. induction 1 as [|b s Hb HF IH]; [cbn; lia|].
  cbn [be length]. rewrite be_shift, Nat2N.inj_succ, N.pow_succ_r'. nia.
Qed.
Lemma be_lower b s : b * 256 ^ N.of_nat (length s) <= be 0 (b :: s).
Proof. cbn [be]. rewrite be_shift. lia. Qed.

Lemma int_to_bytes_spec z : (0 <= z)%Z ->
  exists s, int_to_bytes z = Ok s /\ Forall isbyte s /\ Z.of_N (be 0 s) = z /\
            hd 255 s < 128 /\
            (forall s', Forall isbyte s' -> Z.of_N (be 0 s') = z -> hd 255 s' < 128 -> (length s <= length s')%nat).
Proof.
  intros Hz. destruct z as [|p|p]; [| |lia].
  - exists [0]. split; [reflexivity|]. split; [repeat constructor|]. split; [reflexivity|]. split; [cbn; lia|].
    intros [|x s'] HF _ Hh; cbn in *; lia.
  - destruct (int_to_bytes_raw p) as (s & E & HF & Hbe & Hh). 
    assert (int_to_bytes (Zpos p) = fix_btwoc s) as -> by exact (f_equal (fun m => bind m fix_btwoc) E).
    cbn [bind]. destruct s as [|a r]; [discriminate|]. cbn [hd] in Hh. inv HF. unfold isbyte in H1.
    assert (forall s', Forall isbyte s' -> Z.of_N (be 0 s') = Z.pos p ->
              (length (a :: r) <= length s')%nat) as Hmin.
    { intros s' HF' E'. assert (be 0 s' = be 0 (a :: r)) as E2 by lia.
      pose proof (be_bound s' HF') as B1. pose proof (be_lower a r) as B2.
      destruct (Nat.le_gt_cases (length (a :: r)) (length s')) as [|G]; auto. exfalso.
      assert (256 ^ N.of_nat (length s') <= 256 ^ N.of_nat (length r)) as P.
      { apply N.pow_le_mono_r; [lia|]. cbn [length] in G. lia. }
      nia. }
    unfold fix_btwoc. destruct (127 <? a) eqn:C.
    + exists (0 :: a :: r). split; [reflexivity|]. split; [repeat constructor; auto|].
      split; [rewrite be_cons0; lia|]. split; [cbn; lia|].
      intros s' HF' E' Hh'. pose proof (Hmin s' HF' E') as L.
      destruct (Nat.eq_dec (length (a :: r)) (length s')) as [L'|]; [|cbn [length] in *; lia]. exfalso.
      destruct s' as [|a' r']; [discriminate|]. cbn [hd] in Hh'. inv HF'.
      pose proof (be_bound r' H4) as B1. pose proof (be_lower a r) as B2.
      assert (be 0 (a' :: r') = be 0 (a :: r)) as E2 by lia.
      change (be 0 (a' :: r')) with (be (0 * 256 + a') r') in E2. rewrite be_shift in E2. cbn [length] in L'. injection L' as L'. rewrite <- L' in *.
      assert (a' + 1 <= a) by lia. nia.
    + exists (a :: r). split; [reflexivity|]. split; [repeat constructor; auto|]. split; [lia|]. split; [cbn; lia|].
      intros; auto.
Qed.

Lemma fromhex_neg p : fromhex (let h := hex_of_Z (Zneg p) in if Nat.odd (length h) then 48 :: h else h) = Raise ValueError.
Proof.
  cbn [hex_of_Z]. set (t := hex_digits _ _ _). cbv zeta. 
  destruct (Nat.odd (length (45 :: t))) eqn:O.
  - cbn [fromhex]. reflexivity.
  - destruct t; [discriminate|]. reflexivity.
Qed.

Lemma bytes_to_int_nil : bytes_to_int [] = Raise ValueError.
Proof. reflexivity. Qed.
