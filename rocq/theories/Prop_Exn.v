(** C186: an except clause takes the exceptions of its class and of the classes derived from it.
    The handlers of the model ask [isValueError], [isKeyError], [isProtocolError], [isXRDSError], [isUnicodeError]; the
    specification is the class statements of /repo and the hierarchy of built-in exceptions in the
    documentation of Python. *)
From Coq Require Import String Ascii NArith ZArith List Bool.
From Verif Require Import Py PyFacts Message MessageFacts MessageSpec MessageRound Prop_Message Consumer Discover.
Import ListNotations.
Open Scope list_scope.

(** ** Specification *)
(** The class of an exception; the two called ProtocolError are told apart by their modules. *)
Definition class_of (x : exn) : option text :=
  match x with
  | ValueError => Some (u "ValueError") | KVFormError => Some (u "KVFormError")
  | UnicodeEncodeError => Some (u "UnicodeEncodeError") | UnicodeDecodeError => Some (u "UnicodeDecodeError")
  | UndefinedOpenIDNamespace => Some (u "UndefinedOpenIDNamespace") | InvalidOpenIDNamespace => Some (u "InvalidOpenIDNamespace")
  | KeyError => Some (u "KeyError") | InvalidNamespace => Some (u "InvalidNamespace") | IndexError => Some (u "IndexError")
  | TypeError => Some (u "TypeError") | AttributeError => Some (u "AttributeError") | AssertionError => Some (u "AssertionError")
  | RuntimeError => Some (u "RuntimeError") | OverflowError => Some (u "OverflowError") | OSError => Some (u "OSError")
  | NotImplementedError => Some (u "NotImplementedError") | UnboundLocalError => Some (u "UnboundLocalError")
  | ServerProtocolError => Some (u "server.ProtocolError") | MalformedReturnURL => Some (u "MalformedReturnURL")
  | UntrustedReturnURL => Some (u "UntrustedReturnURL") | MalformedTrustRoot => Some (u "MalformedTrustRoot")
  | NoReturnToError => Some (u "NoReturnToError") | EncodingError => Some (u "EncodingError") | AlreadySigned => Some (u "AlreadySigned")
  | ConsumerProtocolError => Some (u "consumer.ProtocolError") | TypeURIMismatch => Some (u "TypeURIMismatch")
  | ConsumerServerError => Some (u "ServerError") | DiscoveryFailure => Some (u "DiscoveryFailure")
  | HTTPFetchingError => Some (u "HTTPFetchingError") | AXError => Some (u "AXError") | NotAXMessage => Some (u "NotAXMessage")
  | XRDSError => Some (u "XRDSError") | XRDSFraud => Some (u "XRDSFraud")
  | RealmVerificationRedirected => Some (u "RealmVerificationRedirected") | VersionError => Some (u "VersionError")
  | SetupNeededError => Some (u "SetupNeededError") | MetaNotFound => Some (u "MetaNotFound") | LookupError => Some (u "LookupError")
  | OutOfFuel => None
  end.
(** class statements: name and base. *)
Definition classes : list (text * text) :=
  [(* built in *)
   (u "ValueError", u "Exception"); (u "UnicodeError", u "ValueError"); (u "UnicodeEncodeError", u "UnicodeError");
   (u "UnicodeDecodeError", u "UnicodeError"); (u "LookupError", u "Exception"); (u "KeyError", u "LookupError");
   (u "IndexError", u "LookupError"); (u "TypeError", u "Exception"); (u "AttributeError", u "Exception");
   (u "AssertionError", u "Exception"); (u "RuntimeError", u "Exception"); (u "NotImplementedError", u "RuntimeError");
   (u "ArithmeticError", u "Exception"); (u "OverflowError", u "ArithmeticError"); (u "OSError", u "Exception");
   (u "NameError", u "Exception"); (u "UnboundLocalError", u "NameError");
   (* kvform.py:16, message.py:62, 70, 83 *)
   (u "KVFormError", u "ValueError"); (u "UndefinedOpenIDNamespace", u "ValueError"); (u "InvalidOpenIDNamespace", u "ValueError");
   (u "InvalidNamespace", u "KeyError");
   (* server.py:1654, 1773, 1778, 1785, 1809, 1813, 1826, 1834 *)
   (u "server.ProtocolError", u "Exception"); (u "VersionError", u "Exception"); (u "NoReturnToError", u "Exception");
   (u "EncodingError", u "Exception"); (u "AlreadySigned", u "EncodingError"); (u "UntrustedReturnURL", u "server.ProtocolError");
   (u "MalformedReturnURL", u "server.ProtocolError"); (u "MalformedTrustRoot", u "server.ProtocolError");
   (* consumer.py:516, 525, 530, 546 *)
   (u "SetupNeededError", u "Exception"); (u "consumer.ProtocolError", u "ValueError"); (u "TypeURIMismatch", u "consumer.ProtocolError");
   (u "ServerError", u "Exception");
   (* fetchers.py:181, yadis/discover.py:12, yadis/etxrd.py:34, 41, yadis/parsehtml.py:11, trustroot.py:72 *)
   (u "HTTPFetchingError", u "Exception"); (u "DiscoveryFailure", u "Exception"); (u "XRDSError", u "Exception"); (u "XRDSFraud", u "XRDSError");
   (u "MetaNotFound", u "Exception"); (u "RealmVerificationRedirected", u "Exception");
   (* ax.py:42, 47 *)
   (u "AXError", u "ValueError"); (u "NotAXMessage", u "AXError")].
Inductive derived : text -> text -> Prop :=
| itself c : derived c c
| base c b d : In (c, b) classes -> derived b d -> derived c d.
(** except d: takes the exception. *)
Definition takes (d : text) (x : exn) : Prop := exists c, class_of x = Some c /\ derived c d.

(** ** Proofs *)
Definition closed (L : list text) : bool := forallb (fun p => negb (mem_text (snd p) L) || mem_text (fst p) L) classes.
Lemma derived_in L d : closed L = true -> In d L -> forall c, derived c d -> In c L.
Proof.
  intros C D c H. unfold closed in C. rewrite forallb_forall in C. induction H as [|c b d I H IH]; auto. specialize (IH D). specialize (C _ I).
  rewrite orb_true_iff, negb_true_iff in C. cbn [fst snd] in C. rewrite mem_text_In in C. destruct C as [C|C]; auto. apply mem_text_In in IH. congruence.
Qed.
Fixpoint climb (n : nat) (c : text) : list text :=
  c :: match n with O => [] | S n => flat_map (fun p => if text_eqb (fst p) c then climb n (snd p) else []) classes end.
Lemma climb_derived n : forall c d, In d (climb n c) -> derived c d.
Proof.
  induction n as [|n IH]; intros c d [<-|H]; try constructor; [destruct H|].
  apply in_flat_map in H as ((a, b) & I & H). cbn [fst snd] in H. destruct (text_eqb a c) eqn:E; [|destruct H]. apply text_eqb_eq in E as ->.
  eapply base; eauto.
Qed.
Lemma takes_spec (f : exn -> bool) d L :
  closed L = true -> mem_text d L = true ->
  (forall x, f x = match class_of x with Some c => mem_text c L | None => false end) ->
  (forall x c, class_of x = Some c -> mem_text c L = true -> mem_text d (climb 4 c) = true) ->
  forall x, f x = true <-> takes d x.
Proof.
  intros C D F G x. rewrite F. split.
  - destruct (class_of x) as [c|] eqn:E; [|discriminate]. intros M. exists c. split; auto. apply (climb_derived 4). apply mem_text_In. eauto.
  - intros (c & -> & H). apply mem_text_In. apply (derived_in L d C); auto. apply mem_text_In; auto.
Qed.

(** C186 *)
Theorem C186_caught : forall x,
  (isValueError x = true <-> takes (u "ValueError") x) /\ (isKeyError x = true <-> takes (u "KeyError") x) /\
  (isProtocolError x = true <-> takes (u "consumer.ProtocolError") x) /\ (isXRDSError x = true <-> takes (u "XRDSError") x) /\
  (isUnicodeError x = true <-> takes (u "UnicodeError") x).
Proof.
  intros x. repeat match goal with |- _ /\ _ => split end; revert x.
  - apply (takes_spec isValueError _ [u "ValueError"; u "KVFormError"; u "UnicodeError"; u "UnicodeEncodeError"; u "UnicodeDecodeError"; u "UndefinedOpenIDNamespace";
             u "InvalidOpenIDNamespace"; u "consumer.ProtocolError"; u "TypeURIMismatch"; u "AXError"; u "NotAXMessage"]);
      try (vm_compute; reflexivity); intros []; try (vm_compute; reflexivity); intros c H M; (discriminate H || injection H as <-); try (vm_compute; reflexivity); vm_compute in M; discriminate.
  - apply (takes_spec isKeyError _ [u "KeyError"; u "InvalidNamespace"]);
      try (vm_compute; reflexivity); intros []; try (vm_compute; reflexivity); intros c H M; (discriminate H || injection H as <-); try (vm_compute; reflexivity); vm_compute in M; discriminate.
  - apply (takes_spec isProtocolError _ [u "consumer.ProtocolError"; u "TypeURIMismatch"]);
      try (vm_compute; reflexivity); intros []; try (vm_compute; reflexivity); intros c H M; (discriminate H || injection H as <-); try (vm_compute; reflexivity); vm_compute in M; discriminate.
  - apply (takes_spec isXRDSError _ [u "XRDSError"; u "XRDSFraud"]);
      try (vm_compute; reflexivity); intros []; try (vm_compute; reflexivity); intros c H M; (discriminate H || injection H as <-); try (vm_compute; reflexivity); vm_compute in M; discriminate.
  - apply (takes_spec isUnicodeError _ [u "UnicodeError"; u "UnicodeEncodeError"; u "UnicodeDecodeError"]);
      try (vm_compute; reflexivity); intros []; try (vm_compute; reflexivity); intros c H M; (discriminate H || injection H as <-); try (vm_compute; reflexivity); vm_compute in M; discriminate.
Qed.
Print Assumptions C186_caught.

(** A malformed nonce time, a missing key and a refused proxy document are told apart. *)
Example C186_example : takes (u "ValueError") TypeURIMismatch /\ ~ takes (u "ValueError") InvalidNamespace /\ ~ takes (u "KeyError") LookupError.
Proof.
  split; [apply (C186_caught TypeURIMismatch); reflexivity|].
  split; intros H; [apply (C186_caught InvalidNamespace) in H|apply (C186_caught LookupError) in H]; discriminate.
Qed.

(** C13: deleting an argument that is not there, in a namespace that the message has, is a KeyError
    (a dict's del, message.py:521-523). *)
Theorem C13_delete_missing : forall reg m n k, built reg m -> place m n <> None -> getArg m n k = Ok None -> delArg m n k = Raise KeyError.
Proof.
  intros reg m n k B N G. unfold delArg. pose proof (place_ok reg m n B) as P. pose proof (getArg_place reg m n k B) as G0.
  destruct (place m n) as [y|]; [|congruence]. rewrite P. cbn [bind]. unfold dhas.
  destruct (dget akey_eqb (y, k) (margs m)); [congruence|reflexivity].
Qed.
Print Assumptions C13_delete_missing.
Example C13_delete_missing_example :
  exists m, fromPostArgs [] [(u "openid.mode", u "id_res")] = Ok m /\ place m OPENID_NS <> None /\
    delArg m OPENID_NS (u "sig") = Raise KeyError /\ exists m', delArg m OPENID_NS (u "mode") = Ok m'.
Proof.
  destruct (fromPostArgs [] [(u "openid.mode", u "id_res")]) as [m|] eqn:E; vm_compute in E; [|discriminate E].
  injection E as <-. eexists. split; [reflexivity|]. split; [vm_compute; discriminate|]. split; [vm_compute; reflexivity|]. eexists. vm_compute. reflexivity.
Qed.
