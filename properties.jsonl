{"id": "C01", "title": "Key-value form is unambiguous", "statement": "If two lists of text pairs are both accepted by kvform.seqToKV (no exception) and produce the same bytes, the two lists are equal pair by pair. Hence the string that is signed determines exactly which field names and values were signed.", "quantifier": "every two finite lists of pairs of Unicode strings, strict or not", "why_tests_cant": "A collision needs two specially related inputs; examples only show that a few inputs do not collide, and the signature scheme rests on no input colliding.", "anchors": ["openid/kvform.py: seqToKV", "openid/association.py: Association.sign"]}
{"id": "C02", "title": "Key-value form round trip and parse stability", "statement": "kvToSeq(seqToKV(pairs)) gives back pairs whenever keys and values carry no leading or trailing whitespace, keys have no colon and neither has a newline; for arbitrary bytes that parse, re-encoding the parsed pairs in strict mode never fails and parsing again gives the same pairs; seqToKV rejects exactly the pairs with a newline in key or value or a colon in the key (plus surrogates that have no UTF-8 form).", "quantifier": "every list of pairs and every byte string handed to the parser", "why_tests_cant": "Whitespace, empty lines, missing colons and empty keys interact; a corpus covers a handful of combinations.", "anchors": ["openid/kvform.py: seqToKV, kvToSeq, dictToKV, kvToDict"]}
{"id": "C03", "title": "Base64 transport encoding is lossless", "statement": "fromBase64(toBase64(b)) = b for every byte string, toBase64 output is plain ASCII from the base64 alphabet, and distinct byte strings have distinct encodings.", "quantifier": "every finite byte string of every length modulo 3", "why_tests_cant": "Padding depends on length and the bit regrouping on every byte value; tests sample lengths.", "anchors": ["openid/oidutil.py: toBase64, fromBase64"]}
{"id": "C04", "title": "Integers survive the btwoc wire format", "statement": "For every non-negative integer n, bytes_to_int(int_to_bytes(n)) = n, the encoding's first byte is below 0x80 (so it reads as non-negative in two's complement), and it is the shortest such encoding; base64ToLong(longToBase64(n)) = n; negative integers and empty input raise ValueError.", "quantifier": "every integer, unbounded", "why_tests_cant": "Leading-zero handling depends on the top bit of an unbounded number; test vectors are a fixed file.", "anchors": ["openid/cryptutil.py: int_to_bytes, bytes_to_int, fix_btwoc, longToBase64, base64ToLong"]}
{"id": "C05", "title": "Diffie-Hellman association hands over the server's secret", "statement": "For any modulus, generator and private keys, if the server answers an associate request with a DH session built from the consumer's public value, the consumer's extractSecret on the wire fields returns exactly the server's secret when the secret has the digest length of the session; on any other length both sides raise instead of using a truncated key. XOR masking is an involution.", "quantifier": "every modulus > 0, generator, pair of private exponents, secret bytes and hash function of fixed output length", "why_tests_cant": "Tests use default modulus and random keys; correctness of the masking for all keys is an algebraic fact.", "anchors": ["openid/dh.py: DiffieHellman.xor_secret, getSharedSecret, strxor", "openid/consumer/consumer.py: DiffieHellmanSHA1ConsumerSession.extractSecret", "openid/server/server.py: DiffieHellmanSHA1ServerSession.answer"]}
{"id": "C06", "title": "Association records survive serialization", "statement": "deserialize(serialize(a)) equals a (handle, secret, issue time, lifetime, type) for every association whose handle has no surrounding whitespace and no newline; deserialize accepts only records with exactly the fields version, handle, secret, issued, lifetime, assoc_type in that order and version 2, and raises ValueError on all else instead of returning a wrong association.", "quantifier": "every association value and every byte string", "why_tests_cant": "The format must be robust against every handle, secret, negative or huge integer and every corrupted file.", "anchors": ["openid/association.py: Association.serialize, deserialize", "openid/kvform.py"]}
{"id": "C07", "title": "A signed message verifies", "statement": "For every message and association, if no parameter name has 'sig' as one of its comma separated parts and signMessage returns a message, then checkMessageSignature with the same association accepts it, also after the message is sent through toPostArgs/fromPostArgs.", "quantifier": "every message (any fields, namespaces, aliases), every association and every MAC function", "why_tests_cant": "Depends on field order, namespaces, alias assignment, and on the signed list being parsed back to the same names; tests use few messages.", "anchors": ["openid/association.py: Association.signMessage, checkMessageSignature, _makePairs, sign", "openid/message.py: Message.toPostArgs, fromPostArgs"]}
{"id": "C08", "title": "The signature covers every listed field", "statement": "If two messages with the same openid.signed list both verify under one association with the same openid.sig, and the MAC is collision free, then every field named in the list has the same value in both (a missing field counting as the empty string). Changing any listed non-empty value is therefore always detected.", "quantifier": "every pair of messages and every association, for collision free MACs", "why_tests_cant": "Quantifies over all forgeries derived from a signed message.", "anchors": ["openid/association.py: checkMessageSignature, getMessageSignature, _makePairs", "openid/kvform.py: seqToKV"]}
{"id": "C09", "title": "Signing covers every protocol field", "statement": "signMessage lists in openid.signed every openid.* parameter of the message including extension parameters and 'signed' itself, never mutates its input, sets assoc_handle, and refuses (ValueError) a message that already carries a signature or a different assoc_handle.", "quantifier": "every message and association", "why_tests_cant": "An omitted field is only visible for particular messages; the claim is that none is ever omitted.", "anchors": ["openid/association.py: Association.signMessage"]}
{"id": "C10", "title": "Association expiry arithmetic", "statement": "getExpiresIn(now) is never negative, equals issued+lifetime-now while that is positive, and is 0 from that moment on; an association built with fromExpiresIn(n) at time t has remaining lifetime max(0, n-(now-t)) at every later now, and only the two HMAC association types can be constructed with it.", "quantifier": "every issue time, lifetime and clock reading, integers of any size and sign", "why_tests_cant": "Boundary at exact expiry and negative lifetimes are easy to miss in examples.", "anchors": ["openid/association.py: Association.getExpiresIn, fromExpiresIn, __init__"]}
{"id": "C11", "title": "Namespace aliases stay one-to-one", "statement": "After any sequence of addAlias/add operations (successful or raising), no alias names two namespaces, no namespace has two aliases, alias lookup and URI lookup are inverse to each other, no protocol field name or dotted name is ever an alias, and a failed operation leaves the map unchanged.", "quantifier": "every finite sequence of operations with arbitrary arguments", "why_tests_cant": "It is an invariant over histories of operations.", "anchors": ["openid/message.py: NamespaceMap.addAlias, add, getAlias, getNamespaceURI"]}
{"id": "C12", "title": "Automatic alias choice always succeeds with a fresh alias", "statement": "NamespaceMap.add always terminates, returns the existing alias if the URI is known, and otherwise a new alias of the form ext<number> not used by any other namespace.", "quantifier": "every namespace map reachable by any history and every URI", "why_tests_cant": "The search loop has no bound in the code; termination is a claim over all states.", "anchors": ["openid/message.py: NamespaceMap.add"]}
{"id": "C13", "title": "Message arguments behave like a map", "statement": "After setArg(ns,k,v), getArg(ns,k) is v, and every other (namespace,key) is unchanged; after delArg(ns,k) it is absent; updateArgs is the sequence of setArg calls; hasKey/getArg/getArgs agree; reading never changes the message.", "quantifier": "every message, namespace, key and value, including the symbolic OPENID_NS, BARE_NS and NULL_NAMESPACE", "why_tests_cant": "Frame property over all other keys and namespaces.", "anchors": ["openid/message.py: Message.setArg, getArg, delArg, updateArgs, getArgs, hasKey, _fixNS"]}
{"id": "C14", "title": "Parsing a query loses and invents nothing", "statement": "fromPostArgs keeps every parameter: each openid.* parameter other than namespace declarations is retrievable under its alias through getAliasedArg with its value, all non-openid parameters are retrievable in BARE_NS, and nothing else is in the message (for queries in which no namespace is declared to be the literal word 'sreg'; see C64).", "quantifier": "every dictionary of query parameters that is accepted", "why_tests_cant": "Colliding aliases, dotted keys, and undeclared prefixes interact; only a universal statement excludes dropped or overwritten fields.", "anchors": ["openid/message.py: Message.fromPostArgs, _fromOpenIDArgs, getAliasedArg"]}
{"id": "C15", "title": "Message wire round trip", "statement": "fromPostArgs(toPostArgs(m)) denotes the same message as m: same OpenID version, and same value for every namespace and key, for every message built through the public API that is wire safe (extension keys and aliases do not mimic namespace declarations, bare keys do not start with 'openid.', no implicit alias disagrees with the defaults; see C65); toPostArgs never emits two fields under one name.", "quantifier": "every message reachable through the public message API", "why_tests_cant": "Implicit namespaces, OpenID 1 defaults and alias choice have to agree between two independent functions for every message.", "anchors": ["openid/message.py: Message.toPostArgs, toArgs, fromPostArgs, fromOpenIDArgs, getKey"]}
{"id": "C16", "title": "Protocol version detection", "statement": "A parsed message is OpenID 2 exactly when openid.ns is the 2.0 URI; OpenID 1 when openid.ns is absent or one of the 1.x URIs; every other explicit openid.ns is rejected, and isOpenID1/isOpenID2 are mutually exclusive and exhaustive for accepted messages.", "quantifier": "every dictionary of parameters", "why_tests_cant": "Attackers choose openid.ns; downgrade decisions depend on all its values.", "anchors": ["openid/message.py: Message._setOpenIDNamespace, isOpenID1, isOpenID2, _fromOpenIDArgs"]}
{"id": "C17", "title": "Nonce text round trip", "statement": "nonce.split(mkNonce(t)) returns t and the salt for every time from 1970 through 9999, and the text is a valid 20 character UTC timestamp followed by the salt; different times give different texts.", "quantifier": "every second in the supported range and every salt", "why_tests_cant": "Calendar arithmetic (leap years, month ends) over 2.5e11 instants.", "anchors": ["openid/store/nonce.py: mkNonce, split"]}
{"id": "C18", "title": "Nonce freshness window", "statement": "checkTimestamp accepts a nonce exactly when it parses and its time lies within allowed_skew of now on both sides; malformed nonces are rejected without an exception.", "quantifier": "every string, skew and clock value", "why_tests_cant": "Quantifies over all strings an attacker can send.", "anchors": ["openid/store/nonce.py: checkTimestamp, split"]}
{"id": "C19", "title": "Memory store accepts each nonce once", "statement": "Over any history of useNonce, cleanup and association operations with a clock that does not go backwards, useNonce(server, timestamp, salt) returns True at most once per triple, it returns True the first time if the timestamp is within the skew window, and False whenever it is outside.", "quantifier": "every finite history of operations with non-decreasing clock readings", "why_tests_cant": "Replay after cleanup is a property of histories.", "anchors": ["openid/store/memstore.py: MemoryStore.useNonce, cleanupNonces", "openid/store/nonce.py: SKEW"]}
{"id": "C20", "title": "File store accepts each nonce once, across processes", "statement": "For any interleaving of file system calls by any number of processes calling useNonce and cleanup on one directory, at most one useNonce call for a given (server, timestamp, salt) returns True, and once a process has tried to create the file some call has, provided the hash keeps the texts involved apart, the clock does not go backwards, and either nobody cleans up or no process is held up between its clock check and its open until the nonce goes stale. For one process at a time the answer is exactly: fresh and not used before.", "quantifier": "every number of processes, every schedule of their file system steps, every crash point", "why_tests_cant": "Concurrency: the schedules are unbounded and tests run one.", "anchors": ["openid/store/filestore.py: FileOpenIDStore.useNonce, cleanupNonces"]}
{"id": "C21", "title": "SQL store accepts each nonce once", "statement": "For every sequence of transactions useNonce returns True at most once per (server, timestamp, salt) while the clock does not go backwards, relying only on the primary key of the nonce table, including across cleanup; the answer is exactly: fresh and not used before (key over whole columns, as for SQLite and PostgreSQL).", "quantifier": "every history of serialized transactions", "why_tests_cant": "History property including cleanup at arbitrary times.", "anchors": ["openid/store/sqlstore.py: SQLStore.txn_useNonce, txn_cleanupNonces, SQLiteStore.useNonce"]}
{"id": "C22", "title": "Association stores behave like a map keyed by server URL and handle", "statement": "After any history of store/get/remove calls getAssociation(url, handle) returns the association most recently stored under exactly that URL and handle and not removed since, else nothing; removeAssociation reports whether it was present; different URLs or handles never interfere; without a handle the most recently issued association of that URL is returned, except that the file and SQL stores raise TypeError exactly when two were issued in the same second.", "quantifier": "every finite history over all URLs and handles, for the memory, file and SQL stores", "why_tests_cant": "Refinement of an abstract map over all histories.", "anchors": ["openid/store/memstore.py: MemoryStore, ServerAssocs", "openid/store/filestore.py: FileOpenIDStore", "openid/store/sqlstore.py: SQLStore.txn_storeAssociation, txn_getAssociation, txn_removeAssociation"]}
{"id": "C23", "title": "Expired associations are never handed out", "statement": "getAssociation of the file and SQL stores never returns an association whose lifetime has run out at the time of the call, as the store interface promises.", "quantifier": "every store history and clock reading", "why_tests_cant": "Depends on interleaving of clock, cleanup and several associations per server.", "anchors": ["openid/store/interface.py: OpenIDStore.getAssociation", "openid/store/memstore.py: MemoryStore.getAssociation", "openid/store/filestore.py: _getAssociation", "openid/store/sqlstore.py: txn_getAssociation"]}
{"id": "C24", "title": "File store association writes are crash atomic", "statement": "If the process running storeAssociation is killed or fails at any system call, with any buffering of the data, a later getAssociation for that URL and handle sees either the complete old association or the complete new one, never a torn record, and other associations are unaffected; unreadable files are dropped rather than returned.", "quantifier": "every crash point of every store operation in every state of the directory", "why_tests_cant": "Needs all crash points.", "anchors": ["openid/store/filestore.py: storeAssociation, _getAssociation, _mktemp"]}
{"id": "C25", "title": "File names keep servers and handles apart and inside the store directory", "statement": "getAssociationFilename maps different (server URL, handle) pairs to different names when the hash is collision free, names belonging to a server URL are found by the prefix search for exactly that server, and the name contains no path separator so files never leave the association directory, for URLs whose scheme has no '-' or '/'.", "quantifier": "every pair of server URLs and handles, including non-ASCII and URL-unsafe characters", "why_tests_cant": "Escaping must be injective/safe over all strings.", "anchors": ["openid/store/filestore.py: getAssociationFilename, _filenameEscape, _safe64"]}
{"id": "C26", "title": "Cleanup removes exactly the expired entries", "statement": "cleanupAssociations removes every association that has expired and no other (SQL: expired for at least a second), cleanupNonces removes only nonces that useNonce would reject anyway, and both report the number removed.", "quantifier": "every store state and clock reading", "why_tests_cant": "Universal over states, with off-by-one at the boundary.", "anchors": ["openid/store/memstore.py: cleanupNonces, cleanupAssociations", "openid/store/sqlstore.py: txn_cleanupNonces, txn_cleanupAssociations", "openid/store/filestore.py: cleanupAssociations, cleanupNonces"]}
{"id": "C27", "title": "Realm matching is sound", "statement": "TrustRoot.validateURL(url) accepts only URLs with the realm's scheme and port, whose host equals the realm host or (for wildcard realms) is that domain or a dot-separated subdomain of it, and whose path equals the realm path or extends it at a '/', '?' or '&' boundary.", "quantifier": "every realm string and every URL string", "why_tests_cant": "Open redirect attacks choose adversarial strings.", "anchors": ["openid/server/trustroot.py: TrustRoot.validateURL, parse, _parseURL"]}
{"id": "C28", "title": "Realm matching is complete for ordinary URLs", "statement": "Every URL satisfying the realm matching rule is accepted, in particular a realm that parses and has no wildcard matches itself, and matching never raises for a URL whose decoded, IDNA encoded host is a lower case name without delimiters.", "quantifier": "every parsed realm and URL", "why_tests_cant": "Universal over URL shapes; index arithmetic on the path must never go out of range.", "anchors": ["openid/server/trustroot.py: TrustRoot.validateURL"]}
{"id": "C29", "title": "Realm sanity", "statement": "isSane rejects every wildcard realm that covers a whole public suffix of the library's list or a bare top level domain, and 'http://*/' style realms, for every host.", "quantifier": "every realm string", "why_tests_cant": "Quantifies over all hosts and label structures.", "anchors": ["openid/server/trustroot.py: TrustRoot.isSane"]}
{"id": "C30", "title": "Dot segment removal", "statement": "remove_dot_segments terminates on every path, its result has no '.' or '..' segment, never climbs above the root, is idempotent, and leaves paths without dot segments unchanged.", "quantifier": "every string", "why_tests_cant": "A loop over an arbitrary string with several rewriting rules.", "anchors": ["openid/urinorm.py: remove_dot_segments"]}
{"id": "C31", "title": "URI normalization is stable", "statement": "Every result is an http or https URI in printable ASCII with an absolute path free of dot segments. For every accepted URI whose decoded, IDNA encoded host is a lower case name without delimiters (ASCII, percent escaped and international names alike), the authority of the result is the user information as it was, that name, and the port if it is not the default one; and if the fragment is not doubly escaped urinorm(urinorm(u)) = urinorm(u).", "quantifier": "every URI accepted by the normalizer", "why_tests_cant": "Identity comparison relies on it for all URIs; percent-decoding makes it subtle.", "anchors": ["openid/urinorm.py: urinorm"]}
{"id": "C32", "title": "Return URL verification honours only the relying party's own list", "statement": "verifyReturnTo accepts only if realm discovery (without redirect) lists a return URL, itself a valid realm with no wildcard, that matches return_to; a redirected or empty discovery never verifies.", "quantifier": "every realm, return_to, and every discovery outcome", "why_tests_cant": "The remote discovery answer is adversarial.", "anchors": ["openid/server/trustroot.py: verifyReturnTo, returnToMatches, getAllowedReturnURLs"]}
{"id": "C33", "title": "Server only accepts authentication requests whose return URL is inside the realm", "statement": "Every CheckIDRequest produced by decodeRequest has a return_to that is a parseable URL and is within the request's trust_root (when a return_to is present), an OpenID 2 request has return_to or realm, OpenID 1 requests always have identity and return_to, and identity and claimed_id are present together in OpenID 2.", "quantifier": "every query dictionary", "why_tests_cant": "Requests come from the open internet.", "anchors": ["openid/server/server.py: CheckIDRequest.fromMessage, __init__, trustRootValid", "Decoder.decode"]}
{"id": "C34", "title": "check_authentication vouches only for the server's own fresh one-off signatures", "statement": "The server answers is_valid:true only if the message carries a correct signature under an unexpired association created by the server in stateless (dumb) mode with that handle; associations shared with relying parties are never used; after any answer the handle is invalidated, so a second check_authentication for it says false.", "quantifier": "every request message, store content and history", "why_tests_cant": "Replay and cross-mode handle confusion are history properties.", "anchors": ["openid/server/server.py: CheckAuthRequest.answer, Signatory.verify, Signatory.getAssociation, Signatory.invalidate"]}
{"id": "C35", "title": "Positive assertions are always signed", "statement": "Server.encodeResponse never emits an id_res positive assertion without a signature: the emitted message verifies under an association held by the signatory, uses the requested handle if it is a valid shared association of the server and otherwise a fresh private one with invalidate_handle set to the requested handle; a response already signed is refused.", "quantifier": "every response, store content and clock", "why_tests_cant": "Must hold for all store contents including expired and unknown handles.", "anchors": ["openid/server/server.py: Signatory.sign, SigningEncoder.encode, OpenIDResponse.needsSigning"]}
{"id": "C36", "title": "The server asserts only the identity asked about or chosen", "statement": "CheckIDRequest.answer(True) asserts identity/claimed_id equal to those of the request, or, only for identifier_select requests, the ones supplied by the caller; it raises ValueError on any mismatch, never asserts an identity for a request without one, and refuses when return_to is outside the realm.", "quantifier": "every request and every combination of arguments", "why_tests_cant": "Case split over versions, identifier_select, missing values is large and security relevant.", "anchors": ["openid/server/server.py: CheckIDRequest.answer"]}
{"id": "C37", "title": "Refusals never look like assertions", "statement": "CheckIDRequest.answer(False) yields mode cancel, setup_needed or an OpenID 1 id_res with user_setup_url, and never contains identity, claimed_id or a signature. Cancel and setup_needed answers need no signature to be encoded (the OpenID 1 immediate answer is in C84).", "quantifier": "every request in every version and mode", "why_tests_cant": "All combinations of version/immediate.", "anchors": ["openid/server/server.py: CheckIDRequest.answer, OpenIDResponse.needsSigning"]}
{"id": "C38", "title": "Server response encoding", "statement": "whichEncoding is total: direct requests get a key-value body, browser responses a redirect, or a form exactly when the message is OpenID 2 and the URL exceeds the limit; the redirect URL starts with the return_to, and its query parses to the response fields plus the return_to's own query.", "quantifier": "every response and return_to", "why_tests_cant": "Length boundary and URL shapes.", "anchors": ["openid/server/server.py: OpenIDResponse.whichEncoding, encodeToURL, Encoder.encode, ProtocolError.whichEncoding"]}
{"id": "C39", "title": "Association requests are negotiated safely", "statement": "An associate request is accepted only for association/session type pairs the server's negotiator allows and that fit each other; a secret is returned in the clear only when the session type is no-encryption; otherwise the reply carries a DH masked secret; refused types produce an unsupported-type error naming an allowed pair and never a secret.", "quantifier": "every associate message and every negotiator configuration", "why_tests_cant": "All message contents and configurations.", "anchors": ["openid/server/server.py: AssociateRequest.fromMessage, answer, answerUnsupported, Server.openid_associate", "openid/association.py: SessionNegotiator"]}
{"id": "C40", "title": "Negotiator configuration is always consistent", "statement": "Over any sequence of configuration calls a SessionNegotiator only holds pairs valid by getSessionTypes; isAllowed(a,s) holds exactly for listed valid pairs; getAllowedType returns the first listed pair; invalid configuration raises ValueError and does not install the pair.", "quantifier": "every sequence of setAllowedTypes/addAllowedType calls", "why_tests_cant": "Invariant over histories.", "anchors": ["openid/association.py: SessionNegotiator, getSessionTypes, checkSessionType"]}
{"id": "C41", "title": "Consumer success requires everything signed", "statement": "GenericConsumer.complete returns SUCCESS only if all required fields for the version are present and listed in openid.signed, and the signature verified either under a stored, unexpired association for that server with the response's handle, or the server itself answered is_valid:true over a direct request containing the same message.", "quantifier": "every response message, endpoint, store content and remote server behaviour", "why_tests_cant": "The response comes from the user agent and is fully attacker controlled.", "anchors": ["openid/consumer/consumer.py: GenericConsumer.complete, _doIdRes, _idResCheckForFields, _idResCheckSignature, _checkAuth"]}
{"id": "C42", "title": "Consumer success requires the right return URL", "statement": "SUCCESS implies openid.return_to has, after normalization, the scheme, authority and path (up to the parameters of its last segment, see C88) of the URL the response arrived at, every query argument of return_to arrived with the same value in the request, and every other non-OpenID argument of the request is an argument of return_to.", "quantifier": "every response and current URL", "why_tests_cant": "Attackers replay responses made for other sites.", "anchors": ["openid/consumer/consumer.py: _checkReturnTo, _verifyReturnToArgs"]}
{"id": "C43", "title": "Consumer success requires matching discovered information", "statement": "SUCCESS with a claimed identifier implies that either the pre-discovered endpoint or an endpoint freshly discovered from the claimed identifier (fragment removed) supports the response's type and has the response's server URL, local identifier and defragmented claimed identifier; the SUCCESS endpoint carries the asserted claimed_id. An OP can therefore assert only identifiers that delegate to it.", "quantifier": "every response, endpoint and discovery outcome", "why_tests_cant": "Adversarial OP and identifier.", "anchors": ["openid/consumer/consumer.py: _verifyDiscoveryResults, _verifyDiscoveryResultsOpenID2, _verifyDiscoveryResultsOpenID1, _verifyDiscoverySingle, _verifyDiscoveredServices"]}
{"id": "C44", "title": "A response is accepted at most once", "statement": "Over any history of complete() calls of consumers sharing one store (in memory, SQL or files), with a clock that does not go backwards, each (server, nonce) leads to at most one SUCCESS. For the SQL store the texts must be encodable; for the file store SHA-1 must tell the names used apart.", "quantifier": "every history of responses, including replays at any later time, other uses of the store and store cleanup", "why_tests_cant": "Replay is a property of histories.", "anchors": ["openid/consumer/consumer.py: _idResCheckNonce, _idResGetNonceOpenID1", "openid/store/interface.py: useNonce"]}
{"id": "C45", "title": "Consumer never raises on remote data during complete()", "statement": "GenericConsumer.complete returns a Response object for every response whose mode is not id_res; for id_res an exception escapes only for one of a fixed list of causes (return_to or an identifier that is no URL, an unknown OpenID 1 namespace, no session for OpenID 1, an empty signature, an undecodable direct reply, an error of discovery itself).", "quantifier": "every parsed response message and endpoint", "why_tests_cant": "Crash inputs are rare combinations of fields.", "anchors": ["openid/consumer/consumer.py: GenericConsumer.complete, _complete_id_res, _doIdRes, _idResCheckForFields"]}
{"id": "C46", "title": "Association negotiation by the consumer is bounded and within policy", "statement": "_negotiateAssociation sends at most two associate requests, only for types its negotiator allows, and retries only with an allowed type that the server offered in its error reply; it returns an association only from an acceptable reply (C47) to one of these requests, and raises only for the listed causes (undecodable or badly namespaced reply, empty negotiator, unusable Diffie-Hellman value); _getAssociation uses a stored unexpired association or stores the negotiated one.", "quantifier": "every server behaviour and negotiator", "why_tests_cant": "Remote server is adversarial.", "anchors": ["openid/consumer/consumer.py: _negotiateAssociation, _extractSupportedAssociationType, _requestAssociation, _getAssociation"]}
{"id": "C47", "title": "Association responses are validated", "statement": "_extractAssociation accepts a response exactly when it has assoc_type, assoc_handle and an integer expires_in, names the session type of the request (or, in OpenID 1, falls back to no-encryption), has an association type that this session type may carry, and the session extracts a secret from it; the association has that handle, secret, type and lifetime and is issued now. Everything else is refused by KeyError or ProtocolError.", "quantifier": "every response message", "why_tests_cant": "Adversarial server response.", "anchors": ["openid/consumer/consumer.py: _extractAssociation, _getOpenID1SessionType"]}
{"id": "C48", "title": "Signed accessors return only signed data", "statement": "SuccessResponse.getSigned/getSignedNS/extensionResponse(require_signed=True) return a value only if that very field is listed in the verified signed list; getSignedNS is all or nothing.", "quantifier": "every success response and namespace", "why_tests_cant": "Universal over all namespaces and partially signed messages.", "anchors": ["openid/consumer/consumer.py: SuccessResponse.isSigned, getSigned, getSignedNS, extensionResponse"]}
{"id": "C49", "title": "Authentication requests carry what was configured", "statement": "AuthRequest.getMessage yields mode checkid_immediate/checkid_setup as asked, the endpoint's identifiers (identifier_select for OP identifiers), the assoc handle if any, and realm/trust_root by version; all other fields and namespaces are as the application left them; it succeeds exactly when these fields exist; begin hands out a request whose return_to arguments are the nonce and, in OpenID 1, the claimed identifier; the redirect goes to the server URL with these fields as its query.", "quantifier": "every endpoint, association and argument combination", "why_tests_cant": "Case split over versions and endpoints.", "anchors": ["openid/consumer/consumer.py: AuthRequest.getMessage, GenericConsumer.begin"]}
{"id": "C50", "title": "Discovered services are tried in order, once each", "statement": "Over any sequence of getNextService calls for a URL each discovered service is returned in order exactly once before discovery is repeated, cleanup returns the service last handed out, and the session never serves a manager for another URL.", "quantifier": "every list of services and call sequence", "why_tests_cant": "History property over the session state.", "anchors": ["openid/yadis/manager.py: YadisServiceManager, Discovery"]}
{"id": "C51", "title": "Content negotiation respects preferences", "statement": "getAcceptable returns exactly the available types with non-zero quality, each quality being the greatest that the most specific matching ranges give it, ordered by 1 - quality and otherwise as given; for the qualities HTTP allows (at most three decimals) this is the order of decreasing quality. The header is read as exactly the ranges it offers, best first. A type without exactly one slash is the only error.", "quantifier": "every Accept header and list of available types", "why_tests_cant": "All header shapes.", "anchors": ["openid/yadis/accept.py: parseAcceptHeader, matchTypes, getAcceptable"]}
{"id": "C52", "title": "Canonical IDs are accepted only from authoritative chains", "statement": "getCanonicalID returns an identifier only if each XRD in the chain is the parent (up to the last '!') of the next, and the top of the chain is one '!'-segment below the root authority of the queried i-name; any other chain raises.", "quantifier": "every i-name and chain of XRDs", "why_tests_cant": "Adversarial XRDS documents.", "anchors": ["openid/yadis/etxrd.py: getCanonicalID", "openid/yadis/xri.py: providerIsAuthoritative, rootAuthority"]}
{"id": "C53", "title": "XRI to URI conversion yields ASCII and keeps ASCII text", "statement": "toURINormal returns a URI consisting of ASCII characters only, adds the xri:// scheme exactly when absent, is the identity on already normal ASCII XRIs without cross references, and escapes '/', '?', '#' only inside cross references.", "quantifier": "every XRI text", "why_tests_cant": "All Unicode strings.", "anchors": ["openid/yadis/xri.py: toURINormal, toIRINormal, iriToURI, escapeForIRI"]}
{"id": "C54", "title": "Simple registration requests round trip and responses are limited to the request", "statement": "Parsing the arguments of an SReg request gives back the same required, optional and policy_url; no field is ever both required and optional or listed twice; every field is one of the nine defined ones; extractResponse sends only requested fields with supplied values.", "quantifier": "every sequence of requestField calls and every argument dictionary and data dictionary", "why_tests_cant": "Invariant over call sequences.", "anchors": ["openid/extensions/sreg.py: SRegRequest, SRegResponse"]}
{"id": "C55", "title": "Attribute exchange messages round trip and respect the request", "statement": "Parsing FetchResponse arguments gives back the values put in; a response built for a request never contains a type that was not requested or more values than asked for; FetchRequest parsing gives back the requested types, counts and required flags.", "quantifier": "every attribute set, alias assignment and value list", "why_tests_cant": "Alias generation must be collision free for all inputs.", "anchors": ["openid/extensions/ax.py: FetchRequest, FetchResponse, AXKeyValueMessage"]}
{"id": "C56", "title": "PAPE messages round trip", "statement": "Policies, auth levels and auth_time survive getExtensionArgs/parseExtensionArgs; a request never records a policy twice, and neither does addPolicyURI; preferredTypes returns exactly the supported policies that were requested in the provider's order.", "quantifier": "every policy list and level map", "why_tests_cant": "All URI lists and aliases.", "anchors": ["openid/extensions/pape.py: Request, Response, PAPEExtension"]}
{"id": "C57", "title": "Discovered services are ordered by type preference", "statement": "arrangeByType returns its services grouped by the position of the first preferred type each has, those without one last, in the original order within a group; getOPOrUserServices returns the OP identifier services and then all others, each in the original order; none is lost or invented.", "quantifier": "every list of services", "why_tests_cant": "Sorting law over all lists.", "anchors": ["openid/consumer/discover.py: getOPOrUserServices, arrangeByType"]}
{"id": "C58", "title": "End to end: honest assertions are accepted", "statement": "An authentication request answered positively by the server and delivered unchanged to the consumer leads to SUCCESS for the asserted identifier, with a shared association (smart mode) and through check_authentication (stateless mode).", "quantifier": "every honest run: identifiers, return_to, associations, nonces", "why_tests_cant": "Two components agree for all data, not just the example flow.", "anchors": ["openid/server/server.py", "openid/consumer/consumer.py", "openid/association.py", "openid/message.py"]}
{"id": "C59", "title": "End to end: what the consumer accepts the server has said", "statement": "With an unforgeable MAC and secret keys, if the consumer reports SUCCESS then the server produced a signature over exactly the consumer-visible signed fields (identity, claimed_id, return_to, nonce).", "quantifier": "every adversarial network trace", "why_tests_cant": "Protocol level security over all traces.", "anchors": ["openid/server/server.py: Signatory", "openid/consumer/consumer.py: _idResCheckSignature", "openid/association.py"]}
{"id": "C60", "title": "Query arguments appended to a URL are delivered exactly", "statement": "appendArgs(url, args) keeps the given URL as a prefix, uses '?' or '&' correctly, and parsing the query part gives the existing parameters followed by args, for arbitrary Unicode keys and values.", "quantifier": "every URL without fragment and every argument list", "why_tests_cant": "Percent/UTF-8 encoding over all strings.", "anchors": ["openid/oidutil.py: appendArgs", "openid/message.py: Message.toURL, toURLEncoded"]}
{"id": "C61", "title": "Services and URIs are ordered by priority", "statement": "prioSort returns a permutation of its input ordered by non-decreasing priority, with elements lacking a valid priority last, whatever the random shuffle does.", "quantifier": "every element list and every shuffle outcome", "why_tests_cant": "Random tie-breaking makes single runs inconclusive.", "anchors": ["openid/yadis/etxrd.py: prioSort, getPriority, iterServices"]}
{"id": "C62", "title": "Fetching only ever contacts http and https URLs", "statement": "Through any chain of redirects the Curl fetcher requests only URLs starting with http:// or https://, each the normal form of the URL given or of the target of the redirect before; only the first request is a POST; each request's time limit is what is left of 20 seconds, and the fetch stops when time is used up. An answer returned is that of the last request, and every chain of redirects in time is followed.", "quantifier": "every redirect chain and clock behaviour", "why_tests_cant": "Chains are unbounded and attacker controlled.", "anchors": ["openid/fetchers.py: CurlHTTPFetcher.fetch, _allowedURL"]}
{"id": "C63", "title": "Diffie-Hellman secrets are masked with the hash the specification prescribes", "statement": "The mask applied to a MAC key is the session hash of the btwoc encoding of the shared Diffie-Hellman value, for every modulus, generator and key pair.", "quantifier": "every modulus, generator, private keys and secret", "why_tests_cant": "Whether the leading zero byte is missing depends on the top bit of the shared value, so a test with one key pair may pass or fail by chance.", "anchors": ["openid/dh.py: DiffieHellman.xor_secret, get_shared_secret", "openid/cryptutil.py: fix_btwoc"]}
{"id": "C64", "title": "Parsing keeps every parameter, whatever namespaces are declared", "statement": "fromPostArgs either raises or keeps every openid.* parameter retrievable, also when a query declares a namespace whose URI is the word 'sreg'.", "quantifier": "every query", "why_tests_cant": "The colliding word is one of infinitely many namespace names and no test uses it.", "anchors": ["openid/message.py: Message._fixNS, _fromOpenIDArgs"]}
{"id": "C65", "title": "Every message survives the wire", "statement": "fromPostArgs(toPostArgs(m)) succeeds and denotes the same message for every message built through the public API, without further conditions.", "quantifier": "every message reachable through the API", "why_tests_cant": "The failing keys are those that look like namespace declarations; tests use ordinary field names.", "anchors": ["openid/message.py: Message.toPostArgs, fromPostArgs, getKey"]}
{"id": "C66", "title": "An extension can be added again to a message", "statement": "Extension.toMessage applied a second time with the same arguments succeeds and leaves the message's arguments unchanged.", "quantifier": "every message, extension namespace, alias and argument list", "why_tests_cant": "Depends on the protocol version and on the implicit flag of the namespace; tests add each extension once.", "anchors": ["openid/extension.py: Extension.toMessage", "openid/message.py: NamespaceMap.addAlias"]}
{"id": "C67", "title": "A signed message always verifies, whatever its parameter names", "statement": "If signMessage returns a message then checkMessageSignature with the same association accepts it, without any condition on parameter names.", "quantifier": "every message and association", "why_tests_cant": "Needs a parameter name containing a comma, which no test uses.", "anchors": ["openid/association.py: Association.signMessage, _makePairs"]}
{"id": "C68", "title": "Adding a parameter that is listed as signed is always detected", "statement": "A verified message that lists a parameter as signed without carrying it stops verifying when that parameter is added with any value.", "quantifier": "every message and association", "why_tests_cant": "Missing fields and empty fields are signed alike; tests never list an absent field.", "anchors": ["openid/association.py: Association._makePairs"]}
{"id": "C69", "title": "URI normalization is stable for every URI", "statement": "urinorm(urinorm(u)) = urinorm(u) whenever urinorm(u) is defined, without further conditions.", "quantifier": "every URI accepted by the normalizer", "why_tests_cant": "Percent escapes in the host and doubly escaped fragments break it only for special inputs.", "anchors": ["openid/urinorm.py: urinorm"]}
{"id": "C70", "title": "A normalized URI is accepted by the normalizer", "statement": "If urinorm(u) returns r then urinorm(r) returns a value rather than raising.", "quantifier": "every URI accepted by the normalizer", "why_tests_cant": "Only bracketed hosts violate it.", "anchors": ["openid/urinorm.py: urinorm"]}
{"id": "C71", "title": "Normalization keeps the host", "statement": "The host of urinorm(u) is the percent-decoded lower-case host of u.", "quantifier": "every URI accepted by the normalizer", "why_tests_cant": "Only escaped delimiters inside the host violate it.", "anchors": ["openid/urinorm.py: urinorm"]}
{"id": "C72", "title": "Arguments appended to a URL with a fragment are delivered in the query", "statement": "appendArgs(url, args) delivers args in the query of the result also when url has a fragment.", "quantifier": "every URL and argument list", "why_tests_cant": "Tests use URLs without fragment.", "anchors": ["openid/oidutil.py: appendArgs"]}
{"id": "C73", "title": "Realm handling never raises", "statement": "TrustRoot.parse and TrustRoot.validateURL return a result for every text.", "quantifier": "every realm and URL text", "why_tests_cant": "Only authorities without a host name, and bracketed hosts, violate it.", "anchors": ["openid/server/trustroot.py: TrustRoot.parse, validateURL, _parseURL"]}
{"id": "C74", "title": "Association sessions: group parameters", "statement": "A server accepts a Diffie-Hellman association request exactly when a decodable consumer public key is present and either both group parameters are absent (or both empty; the default group is used) or both are present, decode to numbers and are acceptable; one parameter without the other is a protocol error.", "quantifier": "every combination of modulus, generator and public key texts", "why_tests_cant": "the optional fields interact; tests try a few combinations", "anchors": ["openid/server/server.py:DiffieHellmanSHA1ServerSession.fromMessage"]}
{"id": "C75", "title": "Secret size fits the session mask", "statement": "For every allowed (association type, session type) pair the secret size of the association type equals the digest size of the session's hash, so masking and unmasking never fails for its length and is inverse.", "quantifier": "every allowed pair and every secret and mask of the right size", "why_tests_cant": "a wrong table entry only shows up for one pair of types", "anchors": ["openid/association.py:getSecretSize", "openid/association.py:getSessionTypes", "openid/dh.py:strxor"]}
{"id": "C76", "title": "Asking for the newest association never fails (refuted)", "statement": "getAssociation without a handle returns an association whenever a valid one is stored.", "quantifier": "every history of store operations", "why_tests_cant": "Needs two associations issued in the same second: the SQL and file stores then compare Association objects, which raises TypeError.", "anchors": ["openid/store/sqlstore.py: txn_getAssociation", "openid/store/filestore.py: getAssociation"]}
{"id": "C77", "title": "Memory store never hands out expired associations (refuted)", "statement": "getAssociation of the memory store never returns an association whose lifetime has run out.", "quantifier": "every history and clock reading", "why_tests_cant": "Tests rarely move the clock past the lifetime of a stored association.", "anchors": ["openid/store/memstore.py: MemoryStore.getAssociation", "openid/store/interface.py: OpenIDStore.getAssociation"]}
{"id": "C78", "title": "File names stay inside the directory and prefix search is exact for every URL (refuted)", "statement": "For every server URL with a scheme the association file name has no path separator, and the prefix search for one server finds no file of another.", "quantifier": "every pair of server URLs", "why_tests_cant": "Needs URLs whose part before '://' holds '/' or '-'.", "anchors": ["openid/store/filestore.py: getAssociationFilename"]}
{"id": "C79", "title": "SQL cleanup removes everything that has expired (refuted)", "statement": "cleanupAssociations removes an association whose remaining lifetime is zero.", "quantifier": "every association and clock reading", "why_tests_cant": "Off by one at the very second of expiry: getExpiresIn is zero but the row stays.", "anchors": ["openid/store/sqlstore.py: SQLStore.txn_cleanupAssociations clean_assoc_sql", "openid/association.py: Association.getExpiresIn"]}
{"id": "C80", "title": "MySQL tables keep servers apart (refuted)", "statement": "Associations and nonces of different server URLs do not interfere in the MySQL store.", "quantifier": "every pair of server URLs", "why_tests_cant": "The key covers only the first 255 bytes of the URL, so it takes two URLs longer than that with a common prefix.", "anchors": ["openid/store/sqlstore.py: MySQLStore.create_nonce_sql, create_assoc_sql"]}
{"id": "C81", "title": "Association writes survive a power cut and a rename that does not replace (refuted)", "statement": "If the machine loses power at any point of storeAssociation, the old or the new association is readable afterwards; likewise for a crash on systems where rename does not replace.", "quantifier": "every interruption point", "why_tests_cant": "os.fsync runs while the record is still in Python's buffer; no test can cut the power.", "anchors": ["openid/store/filestore.py: storeAssociation"]}
{"id": "C82", "title": "A nonce is accepted once however long a process is held up (refuted)", "statement": "At most one useNonce call per nonce returns True in the file store, for every schedule of useNonce and cleanup.", "quantifier": "every schedule of any number of processes", "why_tests_cant": "Needs a process held up for hours between two adjacent statements while another cleans up.", "anchors": ["openid/store/filestore.py: useNonce, cleanupNonces"]}
{"id": "C83", "title": "Every accepted request can be refused (refuted)", "statement": "CheckIDRequest.answer(False) with no other arguments yields an answer for every request the server has decoded.", "quantifier": "every CheckIDRequest produced by decodeRequest", "why_tests_cant": "Needs an immediate OpenID 1 request, or an immediate OpenID 2 request without identifier; answering these with only the documented required argument raises.", "anchors": ["openid/server/server.py: CheckIDRequest.answer, CheckIDRequest.getCancelURL"]}
{"id": "C84", "title": "Refusals are never signed (refuted)", "statement": "OpenIDResponse.needsSigning is false for every negative answer.", "quantifier": "every CheckIDRequest and every negative answer", "why_tests_cant": "The OpenID 1 immediate refusal has mode id_res, so the signing encoder signs it and allocates an association for it.", "anchors": ["openid/server/server.py: OpenIDResponse.needsSigning, CheckIDRequest.answer"]}
{"id": "C85", "title": "The request decoder raises only ProtocolErrors (refuted)", "statement": "Server.decodeRequest either returns a request or None, or raises a ProtocolError that can be encoded for the client.", "quantifier": "every query dictionary", "why_tests_cant": "Needs malformed queries nobody writes by hand: openid.ns.mode, a return_to with an empty host or with an IPv6 host.", "anchors": ["openid/server/server.py: Decoder.decode", "openid/message.py: Message._fromOpenIDArgs", "openid/server/trustroot.py: TrustRoot.parse"]}
{"id": "C86", "title": "The answer reaches the relying party for every accepted return_to (refuted)", "statement": "The response parameters of an accepted authentication request end up in the query of the URL the browser is sent to.", "quantifier": "every accepted authentication request", "why_tests_cant": "Needs a return_to that ends in a bare '#', which passes the fragment check of realms.", "anchors": ["openid/server/trustroot.py: _parseURL, TrustRoot.parse", "openid/oidutil.py: appendArgs", "openid/server/server.py: OpenIDResponse.encodeToURL"]}
{"id": "C87", "title": "A bad Diffie-Hellman public key is reported as a protocol error (refuted)", "statement": "Every decoded associate request is answered by handleRequest with a response or a ProtocolError, and nothing is stored for a request that fails.", "quantifier": "every decoded associate request", "why_tests_cant": "Tests only send well formed public keys; the public key is used only after the association has been stored.", "anchors": ["openid/server/server.py: DiffieHellmanSHA1ServerSession.fromMessage, answer, Server.openid_associate"]}
{"id": "C88", "title": "The return URL path is the one asked for (refuted)", "statement": "SUCCESS implies that openid.return_to has exactly the path of the URL the response arrived at.", "quantifier": "every response and current URL", "why_tests_cant": "Tests use paths without parameters; urlparse splits ';parameters' off the last segment and they are never compared.", "anchors": ["openid/consumer/consumer.py: _checkReturnTo"]}
{"id": "C89", "title": "The claimed identifier without its fragment is the discovered one (refuted)", "statement": "When a response succeeds with a claimed identifier that has a fragment, the text before '#' is the claimed identifier of the endpoint found by discovery.", "quantifier": "every response with a fragment in its claimed identifier", "why_tests_cant": "urldefrag rebuilds the URL, dropping an empty query or parameters and lower-casing the scheme, so different identifiers compare equal.", "anchors": ["openid/consumer/consumer.py: _verifyDiscoverySingle, _verifyDiscoveryResultsOpenID2"]}
{"id": "C90", "title": "The consumer always answers a response (refuted)", "statement": "GenericConsumer.complete returns a Response object whatever the parameters of the response are and whatever the server answers.", "quantifier": "every parsed response message and session endpoint", "why_tests_cant": "Needs malformed responses nobody writes by hand: an empty signature, the second OpenID 1 namespace, a claimed identifier with a broken authority and a fragment.", "anchors": ["openid/consumer/consumer.py: GenericConsumer.complete, _complete_id_res, _checkReturnTo, _idResCheckForFields, _verifyDiscoverySingle"]}
{"id": "C91", "title": "A consumer that requires encryption never uses a key sent in the clear (refuted)", "statement": "If the negotiator allows only Diffie-Hellman sessions, every association the consumer obtains was made in a Diffie-Hellman session.", "quantifier": "every endpoint, negotiator without no-encryption and server behaviour", "why_tests_cant": "Needs an OpenID 2 endpoint that answers an encrypted request with an OpenID 1 style reply in the clear.", "anchors": ["openid/consumer/consumer.py: _extractAssociation, _getOpenID1SessionType"]}
{"id": "C92", "title": "Beginning authentication falls back to stateless mode whatever the server answers (refuted)", "statement": "GenericConsumer.begin returns a request whatever the server replies to the associate request.", "quantifier": "every server reply", "why_tests_cant": "Needs replies that are not UTF-8, declare an unknown version, or declare a namespace alias that is a protocol field.", "anchors": ["openid/consumer/consumer.py: begin, _requestAssociation, _makeKVPost", "openid/message.py: fromKVForm"]}
{"id": "C93", "title": "The consumer only uses usable associations (refuted)", "statement": "An association accepted from a server has a secret of the length its type needs and is not expired.", "quantifier": "every association reply", "why_tests_cant": "Needs a reply with an empty mac_key or a negative lifetime.", "anchors": ["openid/consumer/consumer.py: _extractAssociation", "openid/association.py: fromExpiresIn"]}
{"id": "C94", "title": "The signature fixes what signed extension data means (refuted)", "statement": "Two successful responses that agree on all signed fields give the same signed extension data.", "quantifier": "every pair of successful responses", "why_tests_cant": "Namespace declarations are not required to be signed: changing openid.ns.x moves the signed values to another extension.", "anchors": ["openid/consumer/consumer.py: SuccessResponse.getSigned, extensionResponse, _idResCheckForFields"]}
{"id": "C95", "title": "An OpenID 2 request can be made without return_to (refuted)", "statement": "getMessage produces an OpenID 2 checkid_setup request when return_to is left out, as its documentation says.", "quantifier": "every prepared OpenID 2 request", "why_tests_cant": "The nonce always occupies return_to_args, and without any the value None is refused by the message.", "anchors": ["openid/consumer/consumer.py: AuthRequest.getMessage, GenericConsumer.begin"]}
{"id": "C96", "title": "The session hands each response the endpoint of the last request", "statement": "Over any sequence of begin, beginWithoutDiscovery and complete calls a response is checked against the endpoint of the last request made and not yet answered; begin uses the next untried service; a successful or cancelled response with a claimed identifier forgets the remaining services and any other response keeps them.", "quantifier": "every sequence of calls, store, discovery, server behaviour and query", "why_tests_cant": "History property over the session shared by all calls.", "anchors": ["openid/consumer/consumer.py: Consumer.begin, beginWithoutDiscovery, complete", "openid/yadis/manager.py: Discovery"]}
{"id": "C97", "title": "A cancelled login forgets the services left (refuted)", "statement": "After a cancelled response with an endpoint the session holds no services for the next begin.", "quantifier": "every session", "why_tests_cant": "Needs a provider-selected identity with two services: the code cleans up only when the response has an identity URL.", "anchors": ["openid/consumer/consumer.py: Consumer.complete"]}
{"id": "C98", "title": "A bad chain of canonical identifiers is reported as an XRDS error (refuted)", "statement": "getCanonicalID raises XRDSError (or XRDSFraud) for every document whose chain of identifiers it does not accept.", "quantifier": "every document and i-name", "why_tests_cant": "Needs an identifier without '!', an empty element, an intermediate XRD without identifier or an empty i-name: ValueError, AttributeError or IndexError come out.", "anchors": ["openid/yadis/etxrd.py: getCanonicalID"]}
{"id": "C99", "title": "Provider identifier services are returned alone and others by preference (refuted)", "statement": "getOPOrUserServices returns only OP identifier services if there are any, otherwise all services with the most preferred type first.", "quantifier": "every list of services", "why_tests_cant": "arrangeByType never drops a service, so its result is empty only for an empty list and the preference order is never used.", "anchors": ["openid/consumer/discover.py: getOPOrUserServices"]}
{"id": "C100", "title": "A service names at most one local identifier", "statement": "findOPLocalIdentifier looks at Delegate elements for 1.x types and LocalID elements for 2.0; leading elements without text are ignored, then all must have the same text, which is returned; otherwise DiscoveryFailure is raised.", "quantifier": "every service element and list of types", "why_tests_cant": "Order and number of elements are unbounded; the empty-element rule is never exercised.", "anchors": ["openid/consumer/discover.py: findOPLocalIdentifier"]}
{"id": "C101", "title": "HTML discovery uses the first link of each relation in the head", "statement": "fromHTML gives at most one endpoint per protocol version, from the first link element of the head whose rel, read as a white-space separated list of words, contains the relation; elements elsewhere never count; the 2.0 endpoint comes first; an unparsable page gives none.", "quantifier": "every page and address", "why_tests_cant": "Quantifies over all attribute values, including relation names that are part of other words.", "anchors": ["openid/consumer/discover.py: fromHTML, LINK_REL_XPATH"]}
{"id": "C102", "title": "Discovery by URL makes at most three requests", "statement": "discoverURI requests nothing, or one http or https URL without fragment that is the normalized input, then at most a location named by the answer (header, or else the first meta element of the head), then at most the first URL again without the Accept header.", "quantifier": "every input, web behaviour, parser result and shuffle", "why_tests_cant": "History property over all behaviours of the contacted servers.", "anchors": ["openid/consumer/discover.py: discoverURI, discoverYadis, discoverNoYadis", "openid/yadis/discover.py: discover, whereIsYadis", "openid/yadis/parsehtml.py: findHTMLMeta"]}
{"id": "C103", "title": "Discovered endpoints claim the final address of the page asked for", "statement": "After discoverURI every endpoint that is not an OP identifier endpoint claims the final address of an answer to a request for the normalized input, OP identifier endpoints claim none and have no local identifier, and the returned claimed identifier is that address normalized.", "quantifier": "every input, web behaviour, parser result and shuffle", "why_tests_cant": "Quantifies over all documents and redirects, including XRDS documents at other locations.", "anchors": ["openid/consumer/discover.py: discoverURI, discoverYadis, discoverNoYadis, parseService, fromHTML"]}
{"id": "C104", "title": "Discovery by URL asks only for http and https URLs (refuted)", "statement": "Every URL that discoverURI passes to the fetcher has the scheme http or https.", "quantifier": "every input and web behaviour", "why_tests_cant": "Needs a page whose X-XRDS-Location names another scheme; it is passed on unchecked.", "anchors": ["openid/yadis/discover.py: discover"]}
{"id": "C105", "title": "The claimed identifier returned is that of the endpoints (refuted)", "statement": "discoverURI returns a claimed identifier equal to the claimed_id of the endpoints it returns.", "quantifier": "every input and web behaviour", "why_tests_cant": "Needs a final address that is not in normal form; only the returned one is normalized.", "anchors": ["openid/consumer/discover.py: discoverURI"]}
{"id": "C106", "title": "XRDS services give exactly the endpoints they describe", "statement": "For a document that is used, the endpoints are exactly: one for each URI with text of each Service of the last XRD with an OpenID type, with all types of the service, and for non-provider services the claimed page address and agreed local identifier; anything that is not an XRDS with an XRD raises XRDSError.", "quantifier": "every document, page address and shuffle that permutes", "why_tests_cant": "Quantifies over all element trees.", "anchors": ["openid/yadis/services.py: applyFilter", "openid/yadis/filters.py: TransformFilterMaker", "openid/consumer/discover.py: fromBasicServiceEndpoint, parseService"]}
{"id": "C107", "title": "Discovery by XRI uses the proxy and a verified canonical identifier", "statement": "discoverXRI asks only the proxy, once for each OpenID type in order, and every endpoint it returns has as claimed and canonical identifier one accepted by the canonical identifier check from one of the answers, and the i-name without scheme as display identifier.", "quantifier": "every XRI, web behaviour, parser result and shuffle", "why_tests_cant": "History property over all answers.", "anchors": ["openid/consumer/discover.py: discoverXRI", "openid/yadis/xrires.py: ProxyResolver.query, queryURL"]}
{"id": "C108", "title": "An XRI service gets the canonical identifier of its own document (refuted)", "statement": "Every endpoint of discoverXRI has the canonical identifier of a document that lists its service.", "quantifier": "every XRI and web behaviour", "why_tests_cant": "Needs two answers with different identifiers: the last one is given to the services of all.", "anchors": ["openid/yadis/xrires.py: ProxyResolver.query", "openid/consumer/discover.py: discoverXRI"]}
{"id": "C109", "title": "Discovery raises only DiscoveryFailure or fetch errors (refuted)", "statement": "discover raises DiscoveryFailure or what the fetcher raised and nothing else.", "quantifier": "every identifier and web behaviour", "why_tests_cant": "Needs 'http://[' (ValueError), a page with an unknown charset (LookupError) or an empty Type element (AttributeError).", "anchors": ["openid/consumer/discover.py: discover", "openid/yadis/discover.py: whereIsYadis", "openid/yadis/etxrd.py: getTypeURIs"]}
{"id": "C110", "title": "Filters are built and applied in order", "statement": "mkFilter raises TypeError exactly when something that is no filter is among its parts at any depth; a flat list applies its filter objects in order and then its callables, where the first callable that gives an endpoint wins.", "quantifier": "every nesting of parts and service", "why_tests_cant": "Quantifies over arbitrarily nested lists and arbitrary filters.", "anchors": ["openid/yadis/filters.py: mkFilter, mkCompoundFilter, TransformFilterMaker, CompoundFilter"]}
{"id": "C111", "title": "The version of a simple registration request survives delivery (refuted)", "statement": "A request added to a message and read back from it on the server has the same simple registration namespace.", "quantifier": "every request and message", "why_tests_cant": "Needs an OpenID 1 message: a 1.0 request is sent under the alias sreg without a declaration, and is read back as 1.1.", "anchors": ["openid/extensions/sreg.py: getSRegNS, SRegRequest.fromOpenIDRequest"]}
{"id": "C112", "title": "The update URL of a fetch request is sent (refuted)", "statement": "The arguments of a fetch request parse back to a request with the same update URL.", "quantifier": "every fetch request", "why_tests_cant": "The round trip of every other part of a request holds for all requests, only this field is dropped by getExtensionArgs.", "anchors": ["openid/extensions/ax.py: FetchRequest.getExtensionArgs"]}
{"id": "C113", "title": "A store response can be read (refuted)", "statement": "StoreResponse.fromSuccessResponse gives the store response contained in a message, or None.", "quantifier": "every message", "why_tests_cant": "The theorem shows that no message, signed fields or flag ever gives a result: the class has no parseExtensionArgs.", "anchors": ["openid/extensions/ax.py: StoreResponse.fromSuccessResponse"]}
{"id": "C114", "title": "Reading attribute exchange messages raises documented errors only (refuted)", "statement": "fromOpenIDRequest and fromSuccessResponse raise nothing but AXError (a ValueError) and KeyError.", "quantifier": "every message", "why_tests_cant": "Needs a message with a type under an alias that is a protocol field name (AssertionError) or with unsigned arguments (AttributeError).", "anchors": ["openid/extensions/ax.py: FetchRequest.fromOpenIDRequest, FetchResponse.fromSuccessResponse"]}
{"id": "C115", "title": "A fetch request whose aliases are legal and distinct can be sent (refuted)", "statement": "When the aliases given to the attributes of a fetch request are legal and no two are the same, getExtensionArgs gives arguments.", "quantifier": "every fetch request", "why_tests_cant": "Needs an attribute without alias before one that was given the alias generated for the first.", "anchors": ["openid/extensions/ax.py: FetchRequest.getExtensionArgs", "openid/message.py: NamespaceMap.add, addAlias"]}
{"id": "C116", "title": "PAPE: no signed arguments, no response (refuted)", "statement": "Response.fromSuccessResponse returns None when the provider sent no signed PAPE arguments.", "quantifier": "every successful response", "why_tests_cant": "Needs a success response without any PAPE argument: an empty Response is returned instead of None.", "anchors": ["openid/extensions/pape.py: Response.fromSuccessResponse", "openid/consumer/consumer.py: SuccessResponse.getSignedNS"]}
{"id": "C117", "title": "PAPE: malformed input is ignored unless strict (refuted)", "statement": "parseExtensionArgs with strict=False raises nothing, for requests and for responses.", "quantifier": "every map of arguments", "why_tests_cant": "Needs a message that defines one of the two default aliases as another URI.", "anchors": ["openid/extensions/pape.py: PAPEExtension._addAuthLevelAlias, Request.parseExtensionArgs, Response.parseExtensionArgs"]}
{"id": "C118", "title": "PAPE: auth_time is an RFC 3339 time (refuted)", "statement": "An auth_time that is accepted names a date and a time of day.", "quantifier": "every map of arguments", "why_tests_cant": "Needs digits that form no date, or a final newline.", "anchors": ["openid/extensions/pape.py: TIME_VALIDATOR, Response.parseExtensionArgs"]}
{"id": "C119", "title": "PAPE: nist_auth_level gives a number or None (refuted)", "statement": "The accessor nist_auth_level raises nothing.", "quantifier": "every response", "why_tests_cant": "Needs a NIST level that is not a decimal number.", "anchors": ["openid/extensions/pape.py: Response.nist_auth_level"]}
{"id": "C120", "title": "PAPE: a response lists a policy once (refuted)", "statement": "The policies of a response that was read are without duplicates.", "quantifier": "every map of arguments", "why_tests_cant": "Needs a provider that repeats a policy.", "anchors": ["openid/extensions/pape.py: Response.parseExtensionArgs"]}
{"id": "C121", "title": "Content negotiation: any qualities are ordered (refuted)", "statement": "The types getAcceptable returns are in the order of decreasing quality for all qualities a header can give.", "quantifier": "every Accept header and list of available types", "why_tests_cant": "Needs qualities too small to differ once subtracted from 1.", "anchors": ["openid/yadis/accept.py: matchTypes"]}
{"id": "C122", "title": "Content negotiation: generated headers say what was asked", "statement": "For types with one slash and no separators and for qualities in (0, 1], generateAcceptHeader gives a header that offers exactly the types given, each with its quality to the nearest tenth and bare types with 1; it raises ValueError exactly when some quality is above 1 or at most 0.", "quantifier": "every list of types and qualities, every float in (0, 1]", "why_tests_cant": "All floats and their rounding.", "anchors": ["openid/yadis/accept.py: generateAcceptHeader, parseAcceptHeader"]}
{"id": "C123", "title": "Content negotiation: a positive quality stays acceptable (refuted)", "statement": "A type given to generateAcceptHeader with a positive quality is acceptable by the header generated.", "quantifier": "every type and quality in (0, 1]", "why_tests_cant": "Needs a quality that one decimal rounds to 0.", "anchors": ["openid/yadis/accept.py: generateAcceptHeader"]}
{"id": "C124", "title": "Content negotiation: only qualities in (0, 1] are generated (refuted)", "statement": "generateAcceptHeader raises ValueError for every quality that is not in (0, 1].", "quantifier": "every float", "why_tests_cant": "Needs a NaN.", "anchors": ["openid/yadis/accept.py: generateAcceptHeader"]}
{"id": "C125", "title": "Curl fetcher: header blocks are read", "statement": "A block of header lines with UTF-8 names and values is read as the dictionary of stripped values by lower-case names, later values in place of earlier ones, also behind a '100 Continue' answer; in whatever is read, names are in lower case and occur once.", "quantifier": "every status line, list of headers and header block", "why_tests_cant": "Unbounded blocks, arbitrary bytes.", "anchors": ["openid/fetchers.py: CurlHTTPFetcher._parseHeaders"]}
{"id": "C126", "title": "Curl fetcher: interim answers are passed over (refuted)", "statement": "A '100 Continue' answer before a header block does not change what is read.", "quantifier": "every interim answer", "why_tests_cant": "Needs an interim answer with headers.", "anchors": ["openid/fetchers.py: CurlHTTPFetcher._parseHeaders"]}
{"id": "C127", "title": "Curl fetcher: bodies are limited", "statement": "The body returned is all chunks received, and all but the last together are at most 1024 KB.", "quantifier": "every network behaviour", "why_tests_cant": "Unbounded numbers and sizes of chunks.", "anchors": ["openid/fetchers.py: CurlHTTPFetcher.fetch"]}
{"id": "C128", "title": "Curl fetcher: no body is above 1024 KB (refuted)", "statement": "The body returned is at most MAX_RESPONSE_KB long.", "quantifier": "every network behaviour", "why_tests_cant": "Needs a chunk that crosses the limit.", "anchors": ["openid/fetchers.py: CurlHTTPFetcher.fetch"]}
{"id": "C129", "title": "Curl fetcher: the final URL is the URL asked for (refuted)", "statement": "The final_url of an answer is the URL of the request it answers.", "quantifier": "every URL", "why_tests_cant": "Needs a URL that normalisation changes, for example with an empty parameter.", "anchors": ["openid/fetchers.py: CurlHTTPFetcher.fetch"]}
{"id": "C130", "title": "Curl fetcher: the number of redirects is bounded (refuted)", "statement": "There is a bound on the number of requests one fetch makes.", "quantifier": "every chain of redirects", "why_tests_cant": "Needs arbitrarily long chains.", "anchors": ["openid/fetchers.py: CurlHTTPFetcher.fetch"]}
{"id": "C131", "title": "Curl fetcher: relative redirects are followed (refuted)", "statement": "A redirect with a relative Location leads to a second request.", "quantifier": "every redirect", "why_tests_cant": "Needs a server that sends relative locations.", "anchors": ["openid/fetchers.py: CurlHTTPFetcher.fetch"]}
{"id": "C132", "title": "urllib and httplib2 fetchers: one request, to a web URL, answered faithfully", "statement": "Urllib2Fetcher and HTTPLib2Fetcher make exactly one request, with the URL, non-empty body and headers given, if the URL starts with http:// or https://, else none and raise ValueError; what they return is what the library brought, with the first 1024 KB of the body for urllib and the content-location as final URL for httplib2.", "quantifier": "every URL, body, headers and library behaviour", "why_tests_cant": "Libraries are arbitrary.", "anchors": ["openid/fetchers.py: Urllib2Fetcher, HTTPLib2Fetcher"]}
{"id": "C133", "title": "requests fetcher: only web URLs are asked for (refuted)", "statement": "RequestsFetcher passes only URLs starting with http:// or https:// to requests.", "quantifier": "every URL", "why_tests_cant": "Needs a URL with another scheme.", "anchors": ["openid/fetchers.py: RequestsFetcher.fetch"]}
{"id": "C134", "title": "Fetchers agree on what an empty body means (refuted)", "statement": "If a body is specified, the request is a POST, as HTTPFetcher.fetch documents.", "quantifier": "every fetcher and body", "why_tests_cant": "Needs an empty body.", "anchors": ["openid/fetchers.py: HTTPLib2Fetcher.fetch, RequestsFetcher.fetch"]}
{"id": "C135", "title": "urllib fetcher: headers can be found by lower-case name (refuted)", "statement": "A header X-XRDS-Location in an answer is found by the lower-case name discovery uses.", "quantifier": "every answer", "why_tests_cant": "Needs a server that capitalises header names.", "anchors": ["openid/fetchers.py: Urllib2Fetcher._makeResponse", "openid/yadis/discover.py: whereIsYadis"]}
{"id": "C136", "title": "The default fetcher", "statement": "createHTTPFetcher takes the first library present in its order of preference; after any sequence of setDefaultFetcher and getDefaultFetcher calls the fetcher in use is the last one set, or the created one if none or None was set; unless it was set without wrapping, fetch raises only HTTPFetchingError; usingCurl says whether it is the Curl fetcher.", "quantifier": "every sequence of calls and set of libraries", "why_tests_cant": "Unbounded sequences of calls.", "anchors": ["openid/fetchers.py: createHTTPFetcher, getDefaultFetcher, setDefaultFetcher, usingCurl, ExceptionWrappingFetcher"]}
{"id": "C137", "title": "Return URL verification reads the realm's own document", "statement": "CheckIDRequest.returnToVerified is true only if the return URL is under a URL without wildcard that a service of type return_to lists, in the last XRD of the document found from the realm's discovery URL, and the page at that URL was not at the end of a redirect (up to normalization); it is true for every such document at the discovery URL itself; at most the discovery URL and one location the page names are asked for.", "quantifier": "every realm, return URL, web, XML document, shuffling and discovery history", "why_tests_cant": "Arbitrary webs and document trees.", "anchors": ["openid/server/server.py: CheckIDRequest.returnToVerified", "openid/server/trustroot.py: verifyReturnTo, getAllowedReturnURLs, _extractReturnURL", "openid/yadis/services.py: getServiceEndpoints"]}
{"id": "C138", "title": "Return URL verification follows no redirects (refuted)", "statement": "No document that came through a redirect verifies a return URL.", "quantifier": "every web", "why_tests_cant": "Needs a page that names a location which redirects.", "anchors": ["openid/server/trustroot.py: getAllowedReturnURLs", "openid/yadis/discover.py: discover"]}
{"id": "C139", "title": "Return URL verification raises only DiscoveryFailure and HTTPFetchingError (refuted)", "statement": "returnToVerified raises nothing but what it documents.", "quantifier": "every realm and document", "why_tests_cant": "Needs the realm of every host, or an empty Type element.", "anchors": ["openid/server/server.py: CheckIDRequest.returnToVerified", "openid/server/trustroot.py: buildDiscoveryURL"]}
{"id": "C140", "title": "SQL transactions are atomic whatever fails", "statement": "A method of an SQL store either answers what the sequential model says for the committed tables and commits its changes, or raises an error that a call on its connection raised, and then the tables are unchanged, unless that call was the commit and the database carried it out; uncommitted leftovers on the connection have no influence.", "quantifier": "every dialect (SQLite, old SQLite, MySQL, PostgreSQL), connection state, method, argument and set of failing calls", "why_tests_cant": "Failures can be injected at every call of every method; tests use working connections.", "anchors": ["openid/store/sqlstore.py: SQLStore._callInTransaction", "openid/store/sqlstore.py: SQLiteStore.useNonce", "openid/store/sqlstore.py: PostgreSQLStore.db_set_assoc"]}
{"id": "C141", "title": "SQL stores keep their promises over failing calls", "statement": "Over any sequence of calls of which any may fail, the tables are those of the calls that took effect; useNonce answers True at most once for a triple, and answers about nonces and associations agree with the calls that took effect.", "quantifier": "every sequence of calls with failures, every dialect with whole keys, clock that does not go backwards", "why_tests_cant": "Unbounded sequences with failures anywhere.", "anchors": ["openid/store/sqlstore.py: SQLStore._callInTransaction", "openid/store/sqlstore.py: SQLStore.txn_useNonce"]}
{"id": "C142", "title": "A nonce for which useNonce raised has not been used up (refuted)", "statement": "If useNonce raises a database error, the same nonce can still be used.", "quantifier": "every failure", "why_tests_cant": "Needs a commit that is carried out and reported as failed.", "anchors": ["openid/store/sqlstore.py: SQLStore._callInTransaction"]}
{"id": "C143", "title": "Concurrent processes on an SQL store accept a nonce once", "statement": "Any number of processes calling any methods, interleaved at every database call, with row locks, failing calls, lost commits and crashes, have at most one useNonce answer True for a triple; what was granted is committed while fresh, and what is committed was granted or its commit was reported as failed.", "quantifier": "every schedule, number of processes, dialect and failure, with cleanup as long as nonces are inserted while fresh", "why_tests_cant": "Interleavings of processes at each statement cannot be enumerated by tests.", "anchors": ["openid/store/sqlstore.py: SQLStore.txn_useNonce", "openid/store/sqlstore.py: SQLStore.txn_cleanupNonces", "openid/store/sqlstore.py: SQLStore._callInTransaction"]}
{"id": "C144", "title": "With REPLACE, concurrent use never raises database errors", "statement": "On SQLite and MySQL, if no call on a connection fails by itself, no method raises a database error in any interleaving.", "quantifier": "every schedule without failures", "why_tests_cant": "Interleavings at each statement.", "anchors": ["openid/store/sqlstore.py: SQLStore.txn_storeAssociation", "openid/store/sqlstore.py: SQLStore.txn_useNonce"]}
{"id": "C145", "title": "Concurrent storing on PostgreSQL never raises (refuted)", "statement": "On PostgreSQL, if no call on a connection fails by itself, storeAssociation does not raise.", "quantifier": "every schedule without failures", "why_tests_cant": "Needs two processes between the SELECT and the INSERT.", "anchors": ["openid/store/sqlstore.py: PostgreSQLStore.db_set_assoc"]}
{"id": "C146", "title": "Nonces on an SQL store are accepted once even if a process is held up (refuted)", "statement": "In every schedule, useNonce answers True at most once for a triple.", "quantifier": "every schedule, including processes held up for hours", "why_tests_cant": "Needs a process stalled for five hours between two lines.", "anchors": ["openid/store/sqlstore.py: SQLStore.txn_useNonce", "openid/store/sqlstore.py: SQLStore.txn_cleanupNonces"]}
{"id": "C147", "title": "Exactly the forms made of XML text can be written", "statement": "toFormMarkup succeeds if and only if the action, the button text and every name and value of the message are XML text (no control characters except tab and line ends, no surrogates) and every additional attribute has an XML name and an XML value.", "quantifier": "all messages, actions, attributes and button texts", "why_tests_cant": "The set of texts is infinite; the claim is an equivalence.", "anchors": ["openid/message.py: Message.toFormMarkup"]}
{"id": "C148", "title": "What is written into a form is what a user agent reads", "statement": "An HTML tokenizer written from the standard reads in the markup one form tag with the given action, POST, UTF-8, URL encoding and the caller's other attributes, one hidden input for each argument with the argument's name and value, and the button: no value can close an attribute, a tag or the form.", "quantifier": "all messages, actions and attributes with lower case names", "why_tests_cant": "Injection can hide in any combination of characters.", "anchors": ["openid/message.py: Message.toFormMarkup"]}
{"id": "C149", "title": "Submitting the page delivers the message", "statement": "The first form of the page, submitted by a user agent, goes to the action and its body parses to the arguments in order, each as browsers send it; without line ends and special names exactly to toPostArgs, so that the receiver's Message answers every getArg as the sender's does.", "quantifier": "all messages, actions and attributes with lower case names", "why_tests_cant": "Every text goes through escaping, tokenizing, form encoding, UTF-8 and decoding.", "anchors": ["openid/message.py: Message.toFormMarkup", "openid/message.py: Message.fromPostArgs", "openid/oidutil.py: autoSubmitHTML"]}
{"id": "C150", "title": "The page submits itself unless an argument is called 'submit'", "statement": "The page has the onload handler, and the form's submit method is hidden by a control if and only if an argument has the wire name 'submit', which only a bare argument can have.", "quantifier": "all messages, actions and attributes", "why_tests_cant": "All argument names.", "anchors": ["openid/oidutil.py: autoSubmitHTML", "openid/message.py: Message.toPostArgs"]}
{"id": "C151", "title": "Every page submits itself (refuted)", "statement": "The page made from a message submits its form when loaded.", "quantifier": "all messages", "why_tests_cant": "Needs a particular argument name.", "anchors": ["openid/oidutil.py: autoSubmitHTML"]}
{"id": "C152", "title": "A form delivers values unchanged (refuted)", "statement": "The body that a user agent sends parses to toPostArgs.", "quantifier": "all messages", "why_tests_cant": "Needs a browser's treatment of line ends.", "anchors": ["openid/message.py: Message.toFormMarkup"]}
{"id": "C153", "title": "'accept-charset' and 'enctype' can be overridden (refuted)", "statement": "A value for 'accept-charset' or 'enctype' in form_tag_attrs is used instead of the default, as documented.", "quantifier": "all attributes", "why_tests_cant": "Refuted for every message and action.", "anchors": ["openid/message.py: Message.toFormMarkup"]}
{"id": "C154", "title": "A supplied action is replaced (refuted)", "statement": "Whatever form_tag_attrs holds, the form is submitted to action_url.", "quantifier": "all attributes", "why_tests_cant": "Needs a reader for which attribute names have no case.", "anchors": ["openid/message.py: Message.toFormMarkup"]}
{"id": "C155", "title": "Pages of provider and consumer go to the return URL and to the endpoint", "statement": "A response page is submitted to the return_to of the request, which for decoded requests is an http or https URL with an authority, and carries the response's fields; an error page goes to the return_to that came with the query and says the error; a request page goes to the provider's endpoint and carries the request.", "quantifier": "all requests, responses, errors and endpoints", "why_tests_cant": "Composition of decoding, answering, encoding, writing, reading and submitting.", "anchors": ["openid/server/server.py: Encoder.encode", "openid/server/server.py: OpenIDResponse.toHTML", "openid/server/server.py: ProtocolError.toHTML", "openid/consumer/consumer.py: AuthRequest.htmlMarkup"]}
{"id": "C156", "title": "Every answer the encoder sends by form can be written (refuted)", "statement": "If an accepted request is answered by a form, the page can be written.", "quantifier": "all accepted requests", "why_tests_cant": "Needs a long return URL with a control character.", "anchors": ["openid/server/server.py: Encoder.encode", "openid/message.py: Message.toFormMarkup"]}
{"id": "C157", "title": "Error pages go to web addresses only (refuted)", "statement": "The page of a ProtocolError raised by the decoder is submitted to an http or https URL.", "quantifier": "all queries the decoder refuses", "why_tests_cant": "Needs a return URL that is a long script.", "anchors": ["openid/server/server.py: Encoder.encode", "openid/server/server.py: ProtocolError.toFormMarkup", "openid/server/server.py: CheckIDRequest.__init__"]}
{"id": "C158", "title": "Confirmations by overlapping provider processes", "statement": "Whatever the interleaving of store calls of any number of provider jobs on one store, a finished check_authentication says true only if at its first call the private association of the handle was in the store, has not run out, verifies the assertion, and was made by a signing job (or before); it does say true if so; and a check of a handle that begins after another check of it has finished says false unless the handle is stored again.", "quantifier": "all jobs, all interleavings, all stores that keep associations, all previous histories", "why_tests_cant": "Interleavings of processes cannot be enumerated.", "anchors": ["openid/server/server.py: CheckAuthRequest.answer", "openid/server/server.py: Signatory.verify", "openid/server/server.py: Signatory.invalidate"]}
{"id": "C159", "title": "Signatures by overlapping provider processes", "statement": "Whatever the interleaving, a finished signing job has sent a message that verifies under the association it names, which is either the requested shared association, found in the store and not run out, or a fresh private one that the job itself has put into the store, the requested handle then being declared invalid.", "quantifier": "all jobs, all interleavings, all stores that keep associations, all previous histories", "why_tests_cant": "Interleavings of processes cannot be enumerated.", "anchors": ["openid/server/server.py: Signatory.sign", "openid/server/server.py: SigningEncoder.encode", "openid/server/server.py: Signatory.createAssociation"]}
{"id": "C160", "title": "An assertion is confirmed at most once by overlapping processes (refuted)", "statement": "Of two check_authentication requests for one assertion at most one is answered is_valid:true.", "quantifier": "all interleavings of two provider processes", "why_tests_cant": "Needs both processes to look up the association before either removes it.", "anchors": ["openid/server/server.py: CheckAuthRequest.answer"]}
{"id": "C161", "title": "Overlapping consumer processes accept a response once", "statement": "Whatever the interleaving of the store calls of any number of visits, and of calls by others, two different visits that succeed never carry the same nonce of the same server; every success carries a nonce.", "quantifier": "all visits, all interleavings, memory, SQL and file store, all previous histories", "why_tests_cant": "Interleavings of processes cannot be enumerated.", "anchors": ["openid/consumer/consumer.py: GenericConsumer.complete", "openid/consumer/consumer.py: GenericConsumer._idResCheckNonce"]}
{"id": "C162", "title": "A success among overlapping consumer processes is justified", "statement": "For each successful visit there is a moment in the run at which the store held an association for the server and the handle of the response, not run out, that verifies the response; or held none and the server has confirmed the response.", "quantifier": "all visits, all interleavings, all stores that keep associations, all previous histories", "why_tests_cant": "Interleavings of processes cannot be enumerated.", "anchors": ["openid/consumer/consumer.py: GenericConsumer.complete", "openid/consumer/consumer.py: GenericConsumer._idResCheckSignature"]}
{"id": "C163", "title": "Answers of the file store while others write", "statement": "Whatever any number of processes do at the same time, whichever system calls fail and whichever processes die: an association that getAssociation answers was handed whole to storeAssociation for this URL before, has the handle asked for, and had not expired at some moment of the call.", "quantifier": "all runs of any number of processes, all interleavings of system calls, partial reads and writes, failures and deaths; renaming that replaces or does not", "why_tests_cant": "Interleavings of system calls and failures cannot be enumerated.", "anchors": ["openid/store/filestore.py: FileOpenIDStore.storeAssociation", "openid/store/filestore.py: FileOpenIDStore.getAssociation", "openid/store/filestore.py: FileOpenIDStore._getAssociation"]}
{"id": "C164", "title": "Overlapping calls of the file store do not raise", "statement": "If no system call fails for outside reasons and renaming replaces, no call of the file store ends with an exception, whatever others do meanwhile, except for the comparison of two associations of the same second when any handle is asked for.", "quantifier": "all runs of any number of processes without outside failures", "why_tests_cant": "Races with deletion by others cannot be enumerated.", "anchors": ["openid/store/filestore.py: FileOpenIDStore", "openid/store/filestore.py: _removeIfPresent"]}
{"id": "C165", "title": "The file store leaves no temporary files", "statement": "As long as temporary files can be removed and nobody is killed, whatever else fails: each file in the directory temp belongs to a process that is still storing an association, and each such process has at most one.", "quantifier": "all runs of any number of processes, all failures of other calls", "why_tests_cant": "Every system call of the writer may fail.", "anchors": ["openid/store/filestore.py: FileOpenIDStore.storeAssociation", "openid/store/filestore.py: FileOpenIDStore._mktemp"]}
{"id": "C166", "title": "Calls of the file store are atomic", "statement": "For every run of overlapping processes, with failing system calls and dying processes, there is a run of a machine in which every call has its effect at one moment between its beginning and its end, with the same calls, times and answers in the same order.", "quantifier": "all runs where renaming replaces", "why_tests_cant": "Linearizability: a statement on all interleavings, by a simulation.", "anchors": ["openid/store/filestore.py: FileOpenIDStore"]}
{"id": "C167", "title": "What has been stored or removed is seen by later lookups", "statement": "A lookup of a handle that begins after a storing or removing call for it has ended, no other one for it having overlapped or followed, gets what that call left, or an error of the system; unless something stored under that handle has expired.", "quantifier": "all runs of any number of processes", "why_tests_cant": "Interleavings of system calls and failures cannot be enumerated.", "anchors": ["openid/store/filestore.py: FileOpenIDStore.storeAssociation", "openid/store/filestore.py: FileOpenIDStore.removeAssociation", "openid/store/filestore.py: FileOpenIDStore.getAssociation"]}
{"id": "C168", "title": "Nonces of the file store among overlapping processes", "statement": "useNonce answers true only if the timestamp was within the window at a moment of the call; of two calls that answer true for the same nonce the later one ends after the window has closed, and a cleanup has begun before.", "quantifier": "all runs of any number of processes, with failures and deaths", "why_tests_cant": "Interleavings of system calls and failures cannot be enumerated.", "anchors": ["openid/store/filestore.py: FileOpenIDStore.useNonce", "openid/store/filestore.py: FileOpenIDStore.cleanupNonces"]}
{"id": "C169", "title": "A stored association stays until it expires or is removed (refuted)", "statement": "If no call fails and nothing is removed, a lookup that begins after an association was stored and ends before it expires finds one.", "quantifier": "all runs of any number of processes", "why_tests_cant": "Needs a lookup that has read an expired predecessor and deletes its successor.", "anchors": ["openid/store/filestore.py: FileOpenIDStore._getAssociation"]}
{"id": "C170", "title": "Storing works where renaming does not replace (refuted)", "statement": "If no call fails for outside reasons, storeAssociation does not raise on Windows either.", "quantifier": "all runs of any number of processes where renaming does not replace", "why_tests_cant": "Needs two writers for one handle, one of them between its two attempts.", "anchors": ["openid/store/filestore.py: FileOpenIDStore.storeAssociation"]}
{"id": "C171", "title": "A nonce of the file store is accepted at most once (refuted)", "statement": "Of all calls of useNonce for one nonce at most one answers true.", "quantifier": "all runs of any number of processes", "why_tests_cant": "Needs a cleanup between the test of the timestamp and the creation of the file.", "anchors": ["openid/store/filestore.py: FileOpenIDStore.useNonce", "openid/store/filestore.py: FileOpenIDStore.cleanupNonces"]}
{"id": "C172", "title": "Calls of the SQLite store are atomic", "statement": "For every run of overlapping processes on one SQLite database, with calls of the database that fail and processes that die, there is a run of a machine in which every call of the store has its effect at one moment between its beginning and its end, with the same calls, times and answers in the same order; provided no commit is reported as failed after having been carried out.", "quantifier": "all runs of any number of processes, all sendable arguments", "why_tests_cant": "Linearizability: a statement on all interleavings and failures, by a simulation.", "anchors": ["openid/store/sqlstore.py: SQLStore", "openid/store/sqlstore.py: SQLiteStore"]}
{"id": "C173", "title": "What has been stored in or removed from SQLite is seen by later lookups", "statement": "A lookup of a handle that begins after a storing or removing call for it has ended, no other one for it having overlapped or followed, gets what that call left, or an error of the database; unless something stored under that handle has expired.", "quantifier": "all runs of any number of processes", "why_tests_cant": "Interleavings of statements and failures cannot be enumerated.", "anchors": ["openid/store/sqlstore.py: SQLStore.txn_storeAssociation", "openid/store/sqlstore.py: SQLStore.txn_removeAssociation", "openid/store/sqlstore.py: SQLStore.txn_getAssociation"]}
{"id": "C174", "title": "Nonces of SQLite among overlapping processes", "statement": "Of two calls of useNonce that answer true for the same nonce the later one ends after the window has closed, and a cleanup has begun before.", "quantifier": "all runs of any number of processes, with failures and deaths", "why_tests_cant": "Interleavings of statements and failures cannot be enumerated.", "anchors": ["openid/store/sqlstore.py: SQLStore.txn_useNonce", "openid/store/sqlstore.py: SQLiteStore.useNonce"]}
{"id": "C175", "title": "An association stored in SQLite stays until it expires or is removed (refuted)", "statement": "If no call fails and nothing is removed, a lookup that begins after an association was stored and ends before it expires finds it.", "quantifier": "all runs of any number of processes", "why_tests_cant": "Needs a lookup that has read an expired predecessor and deletes its successor.", "anchors": ["openid/store/sqlstore.py: SQLStore.txn_getAssociation"]}
{"id": "C176", "title": "storeAssociation of the PostgreSQL store stores (refuted)", "statement": "If no call fails and nothing is removed, a lookup that begins when storeAssociation has just returned finds the association.", "quantifier": "all runs of any number of processes", "why_tests_cant": "Needs a cleanup between the statement that finds the predecessor and the one that replaces it.", "anchors": ["openid/store/sqlstore.py: PostgreSQLStore.db_set_assoc"]}
{"id": "C177", "title": "Where a response says its Yadis document is", "statement": "whereIsYadis returns the final address exactly if the media type of the response, up to case and parameters, is application/xrds+xml; otherwise the location header if it is not empty; otherwise the content of the first meta element for it in the head of the page, decoded with the charset of the last parameter of the content type, or UTF-8, or not at all if that fails; otherwise the header. It raises exactly if there is neither document nor header and the charset is unknown.", "quantifier": "every response, decoder and parser result", "why_tests_cant": "A complete specification as a relation, shown to be the function.", "anchors": ["openid/yadis/discover.py: whereIsYadis", "openid/yadis/parsehtml.py: findHTMLMeta"]}
{"id": "C178", "title": "Who is asked about an identifier", "statement": "An identifier that begins with xri:// or with one of ! = @ + $ ( goes to XRI resolution. Of any other, the first request is for the identifier, if it has a scheme and a host, or else for it with http:// before it, normalized; an identifier with a scheme other than http and https and a host fails without a request.", "quantifier": "every identifier, web behaviour, parser result and shuffle", "why_tests_cant": "Quantifies over all identifiers and all behaviours of the contacted servers.", "anchors": ["openid/yadis/xri.py: identifierScheme", "openid/consumer/discover.py: discover", "openid/consumer/discover.py: discoverURI"]}
{"id": "C179", "title": "The expiration of an XRD element is the time it gives", "statement": "getXRDExpiration returns the default if there is no Expires element; otherwise it returns the time written in the first one, exactly if its text is a time in the format, short fields and lower case allowed, that exists and has at most 59 seconds; every time up to the year 9999 that is written is read.", "quantifier": "every element, every ASCII text, every time", "why_tests_cant": "Quantifies over all documents and all times.", "anchors": ["openid/yadis/etxrd.py: getXRDExpiration"]}
{"id": "C180", "title": "Reading an expiration raises only ValueError, and only for what is not a dateTime (refuted)", "statement": "getXRDExpiration raises nothing but ValueError, and that only if the text is no xs:dateTime.", "quantifier": "every element", "why_tests_cant": "Needs an empty element, or a fraction of a second.", "anchors": ["openid/yadis/etxrd.py: getXRDExpiration"]}
{"id": "C181", "title": "The names on the wire are the specification's", "statement": "The texts that name protocol versions, service types, identifier_select, reserved aliases, the default Diffie-Hellman group, the simple registration fields, the extensions' namespaces and aliases, and the authentication levels are those the specifications give; decisions of the code (which version a message has, whether an endpoint is OpenID 2, whether an alias is refused, whether group parameters are left out) turn on exactly these texts and numbers.", "quantifier": "all messages, endpoints, aliases, group parameters, field names, extension arguments, session suffixes", "why_tests_cant": "A test compares a constant with itself or both ends of one library; here every decision is characterised, for all inputs, by literals copied from the specifications.", "anchors": ["openid/message.py:31-59", "openid/message.py:259-268", "openid/message.py:599-641", "openid/consumer/discover.py:24-50", "openid/constants.py:6-8", "openid/dh.py:56-59", "openid/dh.py:107-108", "openid/extensions/sreg.py:62-110", "openid/extensions/pape.py:20-60", "openid/extensions/ax.py:20-60", "openid/yadis/manager.py:79-152"]}
{"id": "C182", "title": "Consumer processes on the real stores accept a response once", "statement": "When the processes of a relying party make their store calls on the file store (one system call at a time, any of which may fail) or on the SQLite store (one statement at a time), with processes killed at any point and calls overlapping arbitrarily, two different visits that both end in success never carry the same nonce of the same server, unless some process that is not a visit has begun cleanupNonces and the later of the two calls of useNonce ended more than five hours after the nonce's time.", "quantifier": "all deployments: any number of visits and of other processes, all interleavings inside the stores, all failures and crashes, all responses, keys and clocks", "why_tests_cant": "The race is between system calls or statements of different processes inside the store, combined with the consumer's own sequence of checks; tests run one process on a store whose calls do not overlap.", "anchors": ["openid/consumer/consumer.py:768-786", "openid/store/filestore.py:310-346", "openid/store/sqlstore.py:271-300"]}
{"id": "C183", "title": "What a success rests on, with the inside of the store", "statement": "In every such deployment, a visit that succeeds has looked up the response's handle for the server's URL as its first call, and either found an association that has not run out by the visit's clock, verifies the signature of the response, carries the handle asked for and was handed to storeAssociation, by a process that is not a visit, in a call begun before the lookup ended; or found nothing, and the server confirmed the response when asked directly. No visit ever stores an association or cleans up the store.", "quantifier": "all deployments: any number of visits and of other processes, all interleavings inside the stores, all failures and crashes, all responses, keys and clocks", "why_tests_cant": "A half-written file, a row deleted between two statements, or another process's association could be mistaken for the one asked for only in particular interleavings.", "anchors": ["openid/consumer/consumer.py:788-822", "openid/consumer/consumer.py:1084-1110", "openid/store/filestore.py:221-294", "openid/store/sqlstore.py:220-260"]}
{"id": "C184", "title": "A provider's confirmations and signatures, with the inside of the store", "statement": "When the processes of a provider make their store calls on the file store (one system call at a time) or on the SQLite store (one statement at a time), overlapping arbitrarily with each other and with other processes, failing and being killed: a check_authentication that is answered looked up the private association of the assertion's handle first, says yes exactly if it found one that has not run out and verifies the assertion, and what it found has that handle and was handed to storeAssociation by a signing job, which made it, or by others, in a call begun before; and a signed answer is signed with, and names, either the unexpired shared association that was asked for, which an associate job made, or somebody else stored, or a private one that the job has stored without error.", "quantifier": "all deployments: any number of jobs and of other processes, all interleavings inside the stores, all failures and crashes, all requests, keys and clocks", "why_tests_cant": "Combines the provider's sequence of calls with races inside the store; a test runs one process, whose calls do not overlap.", "anchors": ["openid/server/server.py:238-264", "openid/server/server.py:1172-1323", "openid/store/filestore.py:157-307", "openid/store/sqlstore.py:190-269"]}
{"id": "C185", "title": "A finished check spoils the handle for later ones, with the inside of the store", "statement": "In such a deployment, if a check_authentication has been answered, then every check of an assertion with the same handle that begins afterwards says no, provided that no private association is being stored or is stored later under that handle, that those stored before are all the same, and that the later process reads its clock after its lookup.", "quantifier": "all deployments: any number of jobs and of other processes, all interleavings inside the stores, all failures and crashes, all requests, keys and clocks", "why_tests_cant": "Needs the removal to be visible to every later lookup whatever other processes are doing inside the store at the time, including removals of expired associations and failing calls.", "anchors": ["openid/server/server.py:238-264", "openid/server/server.py:1309-1323", "openid/store/filestore.py:296-307", "openid/store/sqlstore.py:262-269"]}
{"id": "C186", "title": "An except clause takes the exceptions of its class and of the classes derived from it, and no others", "statement": "In the model a handler for ValueError, KeyError, the consumer's ProtocolError, XRDSError or UnicodeError takes an exception exactly if the class of the exception is that class or descends from it by the class statements of the library and the hierarchy of Python's built-in exceptions.", "quantifier": "all exceptions of the model, for each of the five handlers", "why_tests_cant": "Tests raise the exceptions they expect. Which exceptions a clause lets through is a statement about all classes, and the totality theorems rest on it.", "anchors": ["openid/consumer/consumer.py:525-543", "openid/message.py:62-96", "openid/kvform.py:16", "openid/yadis/etxrd.py:34-44", "openid/extensions/ax.py:42-48"]}
{"id": "C187", "title": "What a relying party's processes accept, the provider's processes have said", "statement": "A relying party and a provider each run in several processes, on the file store or the SQLite store with their insides (system calls that may fail, statements, processes that are killed). If a visit of the relying party succeeds, then the provider's application has said yes to one of the requests that its processes took, and the return_to, identifiers, nonce and endpoint that were accepted are those of that answer. The premises: keys that have been put into either store for this purpose are secret; questions to the provider are answered by one of its processes; a good signature under such a key was made by one of its processes; the handle of the response is not empty.", "quantifier": "all visits, requests, schedules of both sides, failures and kills, networks, keys", "why_tests_cant": "It quantifies over interleavings of two concurrent systems at once, and over everything that may arrive from the network; tests log in once, in one process.", "anchors": ["openid/consumer/consumer.py:624-671", "openid/consumer/consumer.py:768-822", "openid/server/server.py:1380-1405", "openid/server/server.py:1572-1630", "openid/store/filestore.py:102-400", "openid/store/sqlstore.py:60-300"]}
{"id": "C188", "title": "urinorm accepts exactly the http and https URIs that its parts allow, and refuses the rest with a ValueError", "statement": "urinorm(uri) returns a text if and only if urlsplit accepts the uri; the scheme is http or https; the authority is not empty; the host, with escapes decoded, is a domain name of labels of 1 to 63 URI characters (the last label may be empty), or a name that the IDNA codec turns into URI characters; the port, if any, consists of digits and is at most 65535; the user information has only URI characters; the path has no lone surrogates; no argument of the query that has a value has one; and the decoded fragment has only URI characters. Every refusal is a ValueError or its subclass UnicodeEncodeError.", "quantifier": "every text, every host codec", "why_tests_cant": "A test tries a handful of URIs; that nothing else is refused and nothing else gets through is a statement about every text and every combination of parts.", "anchors": ["openid/urinorm.py:55-150"]}
{"id": "C189", "title": "What a provider's processes have signed they confirm, and they sign with the association that was asked for", "statement": "A provider runs in several processes on the file store or the SQLite store. If storing a private association has ended without an exception, a check_authentication begins afterwards for an assertion that verifies with it, nobody else has stored or removed anything under its handle, and it has not run out, then the check, if it is answered at all, says is_valid:true. Likewise an id_res answer to a request that names a shared association which has been stored before is signed with that association and says nothing of invalidate_handle, under the same conditions.", "quantifier": "every number of processes and jobs, every interleaving of the system calls or database calls, crashes and failing calls included, every HMAC, every message", "why_tests_cant": "The reader and the writer are different processes; a test runs one interleaving of their system calls, and the answer has to be yes in all of them.", "anchors": ["openid/server/server.py:238-264", "openid/server/server.py:1240-1405", "openid/store/filestore.py:190-300", "openid/store/sqlstore.py:180-260"]}
{"id": "C190", "title": "The first use of a nonce is accepted, and a consumer's processes accept genuine responses", "statement": "On the file store and on the SQLite store, with any number of overlapping processes, a nonce that one process begins to use, once, no earlier than five hours before the nonce's time, and whose call ends no later than five hours after it, is accepted unless the call fails. Hence a visit of a consumer process with a genuine response (it names an association whose storing has ended before the visit began, verifies with it, is for this URL and for the identifier that was asked about, signs what has to be signed, and has a nonce that this visit alone uses, in time) ends with a success, if nobody stores or removes anything else under the handle, the association has not run out, and no store call of the visit fails. The same when nobody has begun to store an association under the response's handle and the provider, asked, says is_valid:true.", "quantifier": "every number of processes and visits, every interleaving of the system calls or database calls, crashes included, every HMAC, every network and discovery, every response", "why_tests_cant": "A spurious replay or a lookup that misses an association would depend on how the calls of two processes interleave; a test runs one schedule.", "anchors": ["openid/consumer/consumer.py:622-671", "openid/consumer/consumer.py:713-816", "openid/store/filestore.py:310-345", "openid/store/sqlstore.py:271-292"]}
{"id": "C191", "title": "A login succeeds, from the provider's processes to the consumer's", "statement": "A provider and a consumer each run in several processes, on the file store or the SQLite store with their insides. A request names an association that both sides have stored, with the same handle, type and secret, before the processes in question begin; the application of the provider says yes; one of its processes signs and sends the answer; the browser delivers it to the consumer's return_to. If nobody else stores or removes anything under the handle on either side, the association has not run out, the nonce is used by this visit alone, once and in time, and no store call of the visit fails, then the visit, if it ends, is a success for the endpoint that was asked about, and every field of the response but the signature is signed. The same for a request that names no association: the provider's process signs with a private one and stores it, the consumer has none of that handle and asks the provider, and the question is taken by a process of the provider that begins after the association has been stored, while nobody else touches it and before it runs out.", "quantifier": "every request, provider answer, association, HMAC and schedule of both sides (crashes and failing calls of other processes included), every order in which the browser sends the fields", "why_tests_cant": "Two concurrent systems and everything between them have to agree for all interleavings; a test logs in once, in one process, on one schedule.", "anchors": ["openid/server/server.py:925-1037", "openid/server/server.py:1240-1330", "openid/consumer/consumer.py:622-671", "openid/consumer/consumer.py:713-816", "openid/store/filestore.py:190-345", "openid/store/sqlstore.py:180-292"]}
