(** Model of the service endpoint of /repo/openid/consumer/discover.py:40-126, without
    the parts that read a document (those are in Discover.v). *)
From Verif Require Import Py Message UrlLib.

(** discover.py:32-36; OPENID_1_0_MESSAGE_NS and OPENID_2_0_MESSAGE_NS (22-23) are
    OPENID1_NS and OPENID2_NS of message.py. *)
Definition OPENID_1_0_NS : text := u "http://openid.net/xmlns/1.0".
Definition OPENID_IDP_2_0_TYPE : text := u "http://specs.openid.net/auth/2.0/server".
Definition OPENID_2_0_TYPE : text := u "http://specs.openid.net/auth/2.0/signon".
Definition OPENID_1_1_TYPE : text := u "http://openid.net/signon/1.1".
Definition OPENID_1_0_TYPE : text := u "http://openid.net/signon/1.0".

(** discover.py:50-57. *)
Definition openid_type_uris : list text := [OPENID_IDP_2_0_TYPE; OPENID_2_0_TYPE; OPENID_1_1_TYPE; OPENID_1_0_TYPE].

(** discover.py:58-65. *)
Record endpoint := mkEndpoint {
  ep_claimed_id : option text; ep_server_url : option text; ep_type_uris : list text;
  ep_local_id : option text; ep_canonicalID : option text; ep_used_yadis : bool;
  ep_display_identifier : option text
}.
Definition new_endpoint : endpoint := mkEndpoint None None [] None None false None.

(** discover.py:67-68. *)
Definition usesExtension (ep : endpoint) (uri : text) : bool := mem_text uri (ep_type_uris ep).
(** discover.py:96-97. *)
Definition isOPIdentifier (ep : endpoint) : bool := mem_text OPENID_IDP_2_0_TYPE (ep_type_uris ep).
(** discover.py:70-74. *)
Definition preferredNamespace (ep : endpoint) : text :=
  if mem_text OPENID_IDP_2_0_TYPE (ep_type_uris ep) || mem_text OPENID_2_0_TYPE (ep_type_uris ep)
  then OPENID2_NS else OPENID1_NS.
(** discover.py:76-81. *)
Definition supportsType (ep : endpoint) (type_uri : text) : bool :=
  mem_text type_uri (ep_type_uris ep) || (text_eqb type_uri OPENID_2_0_TYPE && isOPIdentifier ep).
(** discover.py:83-91. *)
Definition getDisplayIdentifier (e : uenv) (ep : endpoint) : res (option text) :=
  match ep_display_identifier ep with
  | Some d => Ok (Some d)
  | None => match ep_claimed_id ep with
            | None => Ok None
            | Some c => d <- urldefrag e c ;; Ok (Some d)
            end
  end.
(** discover.py:93-94 (compatibilityMode). *)
Definition compatibilityMode (ep : endpoint) : bool := negb (text_eqb (preferredNamespace ep) OPENID2_NS).

(** discover.py:115-125: [x or y] on texts that may be None. *)
Definition getLocalID (ep : endpoint) : option text :=
  match ep_local_id ep, ep_canonicalID ep with
  | None, None => ep_claimed_id ep
  | l, c => if otruthy l then l else c
  end.

(** discover.py:221-232. *)
Definition fromOPEndpointURL (op_endpoint_url : text) : endpoint :=
  mkEndpoint None (Some op_endpoint_url) [OPENID_IDP_2_0_TYPE] None None false None.

Definition with_claimed_id (ep : endpoint) (c : option text) : endpoint :=
  mkEndpoint c (ep_server_url ep) (ep_type_uris ep) (ep_local_id ep) (ep_canonicalID ep) (ep_used_yadis ep)
             (ep_display_identifier ep).
