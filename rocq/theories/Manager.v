(** Model of /repo/openid/yadis/manager.py and of the class Consumer of
    /repo/openid/consumer/consumer.py (261-452), which keep discovered services and the
    chosen endpoint in the user's session. *)
From Verif Require Import Py KVForm CryptUtil DH Message Association UrlLib Nonce Store Endpoint Consumer.

Section Manager.
  Context {Sv : Type}.                                   (* service objects *)

  (** manager.py:8-23, YadisServiceManager. *)
  Record manager := mkManager {
    mg_starting_url : text; mg_yadis_url : option text; mg_services : list Sv; mg_session_key : text; mg_current : option Sv
  }.
  (** manager.py:32-43, next: the object after the call, and the service. *)
  Definition mg_next (m : manager) : manager * res Sv :=
    match mg_services m with
    | [] => (m, Raise RuntimeError)                      (* StopIteration; never reached below *)
    | s :: r => (mkManager (mg_starting_url m) (mg_yadis_url m) r (mg_session_key m) (Some s), Ok s)
    end.
  (** manager.py:25-27 and the use of a manager as a condition. *)
  Definition mg_true (m : manager) : bool := match mg_services m with [] => false | _ => true end.
  (** manager.py:52-53; [yadis_url] may be None. *)
  Definition mg_forURL (m : manager) (url : text) : bool :=
    text_eqb url (mg_starting_url m) || opt_eqb text_eqb (Some url) (mg_yadis_url m).
  (** manager.py:55-57. *)
  Definition mg_started (m : manager) : bool := match mg_current m with Some _ => true | None => false end.

  (** The session, as far as managers are concerned. *)
  Definition session := dict text manager.
  (** manager.py:59-61. *)
  Definition mg_store (m : manager) (s : session) : session := dset text_eqb (mg_session_key m) m s.

  (** manager.py:79-95 and 146-152: a Discovery object is a session, a URL and a suffix. *)
  Definition PREFIX : text := u "_yadis_services_".
  Definition session_key (suffix : option text) : text :=
    PREFIX ++ match suffix with Some x => x | None => u "auth" end.

  Section Discovery.
    Variable key : text.
    (** manager.py:154-168. *)
    Definition getManager (url : text) (force : bool) (s : session) : option manager :=
      match dget text_eqb key s with
      | Some m => if mg_forURL m url || force then Some m else None
      | None => None
      end.
    (** manager.py:190-198. *)
    Definition destroyManager (url : text) (force : bool) (s : session) : session :=
      match getManager url force s with Some _ => ddel text_eqb key s | None => s end.
    (** manager.py:170-188. *)
    Definition createManager (url : text) (services : list Sv) (yadis_url : option text) (s : session) : session * res (option manager) :=
      if match getManager url false s with Some m => mg_true m | None => false end then (s, Raise KeyError)
      else match services with
           | [] => (s, Ok None)
           | _ => let m := mkManager url yadis_url services key None in (mg_store m s, Ok (Some m))
           end.
    (** manager.py:97-127; the outcome of [discover(self.url)] is given. *)
    Definition getNextService (url : text) (discover : text -> res (text * list Sv)) (s : session) : session * res (option Sv) :=
      let m := getManager url false s in
      let s := match m with Some x => if mg_true x then s else destroyManager url false s | None => s end in
      let '(s, m) :=
        match m with
        | Some x => if mg_true x then (s, Ok (Some x))
                    else match discover url with
                         | Raise e => (s, Raise e)
                         | Ok (yadis_url, services) => createManager url services (Some yadis_url) s
                         end
        | None => match discover url with
                  | Raise e => (s, Raise e)
                  | Ok (yadis_url, services) => createManager url services (Some yadis_url) s
                  end
        end in
      match m with
      | Raise e => (s, Raise e)
      | Ok (Some x) =>
          if mg_true x then
            match mg_next x with
            | (x', Ok service) => (mg_store x' s, Ok (Some service))
            | (_, Raise e) => (s, Raise e)
            end
          else (s, Ok None)
      | Ok None => (s, Ok None)
      end.
    (** manager.py:129-144. *)
    Definition cleanup (url : text) (force : bool) (s : session) : session * option Sv :=
      match getManager url force s with
      | Some m => (destroyManager url force s, mg_current m)
      | None => (s, None)
      end.
  End Discovery.
End Manager.
Arguments manager : clear implicits.
Arguments session : clear implicits.

(** ** class Consumer, consumer.py:261-452.
    The session holds managers under PREFIX ++ session_key_prefix and the endpoint under
    session_key_prefix ++ 'last_token'; these keys differ in length, so the two kinds of
    values are kept apart here. *)
Definition session_key_prefix : text := u "_openid_consumer_".
Definition yadis_key : text := session_key (Some session_key_prefix).

Section Session.
  Variable e : uenv.
  Variable reg : dict text text.
  Variable hmac : text -> bytes -> bytes -> bytes.
  Variable params_ok : Z -> Z -> bool.
  Variable pub_ok : Z -> Z -> Z -> bool.
  Variable hash : hash_alg -> bytes -> bytes.
  Variable udigit : N -> option Z.
  Variable net : list post -> option (N * bytes).
  Variable discover : text -> res (text * list endpoint).  (* discover.py:465 *)
  Context {S : Type} (step : S -> Z -> op -> S * out).
  Variable now : Z.

  Record usession := mkSession { us_managers : session endpoint; us_token : option endpoint; us_state : @cst S }.

  (** consumer.py:360-392; ProtocolError stands for the consumer's. *)
  Definition beginWithoutDiscovery (neg : negotiator) (service : endpoint) (anonymous : bool) (x1 x2 : Z) (salt : text)
    (s : usession) : usession * res authreq :=
    match begin reg params_ok pub_ok hash net step now neg service x1 x2 salt (us_state s) with
    | (c, Raise x) => (mkSession (us_managers s) (us_token s) c, Raise x)
    | (c, Ok r) =>
        (mkSession (us_managers s) (Some (ar_endpoint r)) c,
         match setAnonymous r anonymous with
         | Ok r' => Ok r'
         | Raise x => Raise (if isValueError x then ConsumerProtocolError else x)
         end)
    end.
  (** consumer.py:308-358. *)
  Definition cbegin (neg : negotiator) (user_url : text) (anonymous : bool) (x1 x2 : Z) (salt : text)
    (s : usession) : usession * res authreq :=
    match getNextService yadis_key user_url discover (us_managers s) with
    | (m, Raise HTTPFetchingError) => (mkSession m (us_token s) (us_state s), Raise DiscoveryFailure)
    | (m, Raise x) => (mkSession m (us_token s) (us_state s), Raise x)
    | (m, Ok None) => (mkSession m (us_token s) (us_state s), Raise DiscoveryFailure)
    | (m, Ok (Some service)) =>
        beginWithoutDiscovery neg service anonymous x1 x2 salt (mkSession m (us_token s) (us_state s))
    end.
  (** consumer.py:394-431. *)
  Definition ccomplete (query : dict text text) (current_url : text) (s : usession) : usession * res response :=
    match fromPostArgs reg query with
    | Raise x => (s, Raise x)
    | Ok message =>
        match complete e reg hmac udigit net (fun t => r <- discover t ;; Ok (snd r)) step now message (us_token s) current_url (us_state s) with
        | (c, Raise x) => (mkSession (us_managers s) (us_token s) c, Raise x)
        | (c, Ok response) =>
            let m := match response with
                     | Success _ _ _ | Cancel _ =>
                         match identity_url response with
                         | Some url => fst (cleanup yadis_key url true (us_managers s))
                         | None => us_managers s
                         end
                     | _ => us_managers s
                     end in
            (mkSession m None c, Ok response)
        end
    end.
End Session.
