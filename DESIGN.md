# Formal model of python-openid: design

## Scope and method

The sources under `/repo/openid` are read as text; nothing of them is run.
For each module we write a shallow functional model in Coq 8.16.1
(`rocq/theories/`), function by function, with the same branch structure as the
Python code, and prove the properties of `properties.jsonl` as theorems about
that model, for all inputs and all histories.

Conventions of the model

* We model the Python 3 branch of every `six` switch (dicts keep insertion
  order, `str` is Unicode text).
* Text is a list of code points (`list N`), bytes are a list of numbers below
  256 (`list N`), integers are `Z`/`N`, dictionaries are association lists in
  insertion order.
* A Python exception is a value: functions return `Ok x` or `Raise e`.
* State (stores, sessions, file systems) is passed explicitly.  Histories are
  lists of operations; concurrent runs are lists of atomic steps (schedules).
* What the code gets from outside is an explicit parameter of the model: clock
  readings, random strings, HMAC and hash functions, HTTP replies and discovery
  results.  Nothing is assumed about a parameter unless a theorem says so in
  its hypotheses (e.g. "the MAC is injective in its message").
* Model files hold definitions only.  Proof files hold lemmas.  Files named
  `Prop_*.v` hold the property theorems, each with an `Example` that exhibits a
  concrete non-trivial instance, and `Print Assumptions`.
* Where the faithful model violates a property as stated, the violation is
  proved as `..._refuted` with a witness and the part that does hold is proved
  separately (suffix `_partial` if it is a weakening of the stated property).

## Files

Model files hold definitions only; the files that prove things about a model are
listed beside it.

| model | models | lemmas | property theorems |
|---|---|---|---|
| `Py.v` | the Python text/bytes/dict primitives the code uses | `PyFacts.v` | `Prop_Exn.v` (which exceptions a clause takes) |
| `Utf8.v` | `str.encode('utf-8')`, `bytes.decode('utf-8')` | `Utf8Facts.v` | |
| `KVForm.v` | `openid/kvform.py` | `KVFormFacts.v` | `Prop_KVForm.v` |
| `CryptUtil.v` | `openid/cryptutil.py`, base64 helpers of `openid/oidutil.py` | `CryptUtilFacts.v` | `Prop_Crypt.v` |
| `DH.v` | `openid/dh.py`, the Diffie-Hellman sessions of server and consumer | `DHFacts.v` | `Prop_Crypt.v`, `Prop_CryptExact.v` |
| `Message.v` | `openid/message.py`, `openid/extension.py` | `MessageFacts.v`, `MessageWire.v`, `MessageParse.v`, `MessageSpec.v`, `MessageRound.v`, `MessageSimple.v` | `Prop_Message.v`, `Prop_Wire.v` (constants of all modules, against the specifications) |
| `Association.v` | `openid/association.py` | `AssociationFacts.v` | `Prop_Association.v`, `Prop_Association2.v` |
| `UrlLib.v` | the functions of `urllib.parse` that are used | `UrlLibFacts.v` | |
| `UriNorm.v` | `openid/urinorm.py` | `UriNormFacts.v`, `UriNormStable.v` | `Prop_Uri.v`, `Prop_UriAccept.v` |
| `OidUtil.v` | `appendArgs` and the URL writers of messages | `OidUtilFacts.v` | `Prop_Uri.v` |
| `TrustRoot.v` | `openid/server/trustroot.py` | `TrustRootFacts.v` | `Prop_TrustRoot.v` |
| `Nonce.v` | `openid/store/nonce.py` and the time functions it calls | `NonceFacts.v` | `Prop_Nonce.v` |
| `Store.v` | `openid/store/memstore.py`, `sqlstore.py` | `StoreSpec.v`, `StoreFacts.v` | `Prop_StoreMem.v`, `Prop_StoreSql.v` |
| `FileStore.v` | `openid/store/filestore.py`, one call at a time | `FileStoreFacts.v` | `Prop_FileNames.v`, `Prop_StoreFile.v` |
| `FileConc.v` | nonces of the file store, several processes, one system call at a time | | `Prop_FileConc.v` |
| `FileSys.v` | the file store, several processes, one system call at a time, any of which may fail | `FileAtomic.v` (calls one at a time), `FileSysFacts.v` | `Prop_FileSys.v`, `Prop_FileAtomic.v` |
| `SqlTxn.v` | `openid/store/sqlstore.py` statement by statement, on a connection any call of which may fail | | `Prop_SqlTxn.v` |
| `SqlConc.v` | the SQL stores, several processes, one database call at a time | `SqlAtomicFacts.v` (calls one at a time) | `Prop_SqlConc.v`, `Prop_SqlAtomic.v` |
| `FileCrash.v` | writing an association file, a crash after any system call | | `Prop_FileCrash.v` |
| `Server.v` | `openid/server/server.py` | `ServerFacts.v`, `ServerStores.v`, `SignatoryFacts.v` | `Prop_ServerDecode.v`, `Prop_Signatory.v`, `Prop_ServerAnswer.v`, `Prop_ServerEncode.v`, `Prop_ServerAssociate.v` |
| `Conc.v` | jobs in several processes on one store, one store call at a time | `ConcFacts.v` | |
| `ServerConc.v`, `ConsumerConc.v` | the jobs of `Server.v` and `Consumer.v` in such processes | `ServerConcFacts.v` | `Prop_ServerConc.v`, `Prop_ConsumerConc.v` |
| `Html.v` | `toFormMarkup` with `ElementTree.tostring`, `oidutil.autoSubmitHTML` | `HtmlSpec.v` (tokenizer and form submission), `HtmlFacts.v` | `Prop_Html.v`, `Prop_HtmlSent.v`, `Prop_HtmlLogin.v` |
| `Endpoint.v` | the endpoint class of `openid/consumer/discover.py` | | |
| `Consumer.v` | `openid/consumer/consumer.py` | `ConsumerFacts.v` | `Prop_Consumer.v`, `Prop_ConsumerOnce.v`, `Prop_ConsumerTotal.v`, `Prop_ConsumerAssoc.v`, `Prop_ConsumerRequest.v`, `Prop_ConsumerAccepts.v` |
| `Manager.v` | `openid/yadis/manager.py`, the class `Consumer` with its session | | `Prop_Manager.v` |
| `Xri.v` | `openid/yadis/xri.py` | | `Prop_Xri.v` |
| `Deploy.v` | the same jobs on the file store one system call at a time (`FileSys.v`), or the SQLite store one database call at a time (`SqlConc.v`) | `DeployFacts.v`, `DeployStores.v` (the logs of the two stores) | `Prop_DeployRP.v`, `Prop_DeployOP.v`, `Prop_DeployBoth.v`, `Prop_DeployFinds.v`, `Prop_DeployAccepts.v`, `Prop_DeployLogin.v`, `Prop_DeployStateless.v` (both sides together) |
| `Etxrd.v`, `Expires.v` | `openid/yadis/etxrd.py` on element trees | | `Prop_Etxrd.v`, `Prop_Expires.v` |
| `Discover.v` | `openid/yadis/{discover,parsehtml,services,filters,xrires}.py`, `openid/consumer/discover.py` | | `Prop_Discover.v`, `Prop_DiscoverUri.v`, `Prop_DiscoverXri.v`, `Prop_Yadis.v` |
| `Verify.v` | `returnToVerified` and what it calls, on `Discover.v` | | `Prop_Verify.v` |
| `Fetch.v` | `openid/fetchers.py` | | `Prop_Fetch.v` |
| | exact conditions for claims that are refuted in general (C99, C105, C116, C119, C120, C128) | | `Prop_Exact.v` |
| `Accept.v` | `openid/yadis/accept.py` | `AcceptFacts.v` | `Prop_Accept.v` |
| `Sreg.v`, `Ax.v`, `Pape.v` | `openid/extensions/{sreg,ax,pape}.py`, `draft/pape2.py` | `ExtFacts.v`, `AxFacts.v` | `Prop_Sreg.v`, `Prop_Ax.v`, `Prop_Pape.v` |
| (no model of its own) | server, browser and consumer together | | `Prop_EndToEnd.v` (C58), `Prop_Unforged.v` (C59) |

## Plan per property

| id | what is modelled, how it is proved |
|---|---|
| C01 | `seqToKV` with its error branches; injectivity by induction on the pair list (first colon / first newline determine the split) plus injectivity of UTF-8 |
| C02 | `kvToSeq` with line splitting and Unicode `strip`; round trip and stability by induction on lines |
| C03 | base64 as 3-byte regrouping; round trip by strong induction on the list, arithmetic by lia |
| C04 | big-endian digits on `N`; round trip and minimality by strong induction |
| C05 | modular exponentiation on `Z`, hash as parameter with fixed output length |
| C06 | `serialize`/`deserialize` over C01-C03 |
| C07-C09 | `signMessage`, `checkMessageSignature`, `_makePairs` with the MAC as parameter |
| C10 | integer arithmetic |
| C11, C12 | `NamespaceMap` as two association lists; invariant over op lists; pigeonhole for `add` |
| C13-C16 | `Message` as namespace map plus ordered dict keyed by (namespace, key) |
| C17, C18 | proleptic Gregorian calendar on `Z`; civil-from-days / days-from-civil inverse |
| C19-C26 | stores as state machines; abstract map specification; refinement and history invariants; for the file store an abstract directory with atomic create-exclusive, rename and unlink steps, arbitrary schedules and crash points |
| C27-C29, C32 | trust root functions on text; independent matching specification |
| C30, C31 | `remove_dot_segments` with fuel bounded by length and proof that fuel suffices; normalization |
| C33-C39 | server request decoding, answering, signing, over the store model |
| C40 | negotiator invariant |
| C41-C49 | consumer checks with remote server, discovery and fetcher as parameters |
| C50-C53 | manager, accept, XRI functions |
| C54-C56 | extension argument (de)serialization |
| C57, C61 | sorting with stability specification |
| C58, C59 | composition of server and consumer models |
| C60 | `urlencode`/`parse_qsl` over UTF-8 |
| C62 | redirect loop with oracle |

## Trusted base

**Checked by Coq.**  Coq's kernel (8.16.1).  Every `Prop_*.v` file prints the
assumptions of each of its theorems; all print "Closed under the global
context": no axiom, of the standard library or otherwise, is used.  What the
code gets from outside is a universally quantified parameter of the theorems
(a `Variable` inside a `Section` that is closed before `Print Assumptions`).

**Not checked by Coq.**

1. That the model says what the Python text says.  Every definition cites the
   lines it models and says what it leaves out.  The citations were read against
   the sources file by file.
2. That the models of Python's built-ins and standard library functions are
   right (table below).  They follow the documentation and sources of CPython
   3.11.10 and were compared with that interpreter's standard library on random
   and hand-picked inputs; no code of `/repo` was run for that.
3. That the parameters stand for what they are said to stand for:

| parameter | stands for | assumed (only where a theorem says so) |
|---|---|---|
| `hmac` | HMAC of the given type | C08: no collision on the two signed texts compared; C07, C34, C35, C58: results are bytes; C59: a good signature on the accepted query under a secret key was made by the provider |
| `hash` | SHA-1, SHA-256 | output length |
| `params_ok`, `pub_ok` | which Diffie-Hellman parameters and keys `cryptography` accepts | that default parameters are accepted |
| `fl` | `float(str)` in `accept.py` | C122: decimal tenths are read as the nearest floats |
| `net`, `clock` | what pycurl brings for the requests made so far; readings of the clock in seconds | C62_in_time: transfers keep to their limits |
| `lib`, `previous` | what urllib, httplib2 or requests bring, redirects included | none |
| `nan_order` | what `sorted` makes of keys with a NaN | C51: some permutation |
| `uenv` | IDNA encoding, NFKC check and bracketed-host check of `urllib.parse` | C30/C31: they reject nothing they accepted before |
| `udigit`, `udec` | digits outside ASCII as `\d` and `int()` take them | |
| `reg` | `message.registered_aliases` | that it holds what the loaded extension modules put there |
| `now`, clock readings | `time.time()` in whole seconds | |
| secrets, handles, salts, private keys | random strings | freshness, where uniqueness is claimed |
| `step` | any store | refinement of the abstract store (proved for the three stores) |
| `net`, `web` | replies of other hosts, a function of all requests so far | |
| `discover` | discovery, for the consumer proper | |
| `parse_xml`, `parse_html`, `parse_meta` | lxml | |
| `decode_as`, `low` | codecs, `str.lower` | |
| `rnd` | `random.shuffle` | gives a permutation |

## What is left out

* Everywhere: logging, deprecation warnings, bytes where text is expected
  (deprecated), Python 2 branches, memory and recursion limits, the limit on the
  number of digits `int()` takes.
* `str.lower` and `int()` are modelled for ASCII, except where a parameter
  stands for the rest.  `isspace` is complete.
* Server: all store calls of one operation are made at the same clock reading;
  texts of errors that contain the repr of a message; in `Server.v` and
  `Consumer.v` a form is a structure of attributes and inputs.
* Forms (`Html.v`): the serializer is that of libxml2 for attribute values in
  UTF-8, with the attributes in the order in which they were set; XML names are
  complete for ASCII only, `{namespace}name` is refused; values of
  form_tag_attrs that the library replaces are not checked.  `HtmlSpec.v` is a
  small user agent that gives up on everything it does not know.
* Consumer: the texts of failures that the consumer finds itself; endpoints
  without a server URL raise where the code would use the URL; the session is
  split into the part for managers and the token.
* Stores: the SQL store is a set of tables with the statements of
  `SQLStore`; the database's own behaviour is that of the statements.
  `SqlTxn.v` adds the connection, with failing calls and uncommitted changes,
  and `SqlConc.v` row locks between transactions that see what is committed and
  their own changes.  Creating tables and the default table names are not modelled.  The file store's
  directories are maps from names to contents, with atomic create-exclusive,
  rename and unlink.  `FileSys.v` adds buffers, partial reads and writes, failing
  calls and processes that die; a failing call has no effect and its error is
  not one that the code treats specially; data survive what kills a process (no
  power loss; `FileCrash.v` has that for one writer).  The directories exist and
  permissions are not modelled.
* Processes (`Conc.v`): a store call is one step; inside a job the clock is read
  once, the times at which its calls reach the store are arbitrary but in order.
  `FileConc.v`, `FileSys.v` and `SqlConc.v` look inside the store calls.
* Discovery: documents are element trees; what `etree` makes of a text is a
  parameter.
* Extensions: values are texts; objects are values, so that aliasing of a list
  between an object and its caller is not modelled.
* Fetchers: what urllib, httplib2 and requests do inside, redirects included, is
  a parameter; of pycurl, a single transfer is.
* Not modelled at all: `openid/extensions/draft/pape5.py` and `openid/sreg.py`
  (re-exports), `contrib`, `examples`.

## Python functions that are modelled

| function | model |
|---|---|
| `str.split(c)`, `split(c, 1)`, `rsplit(c, 1)`, `split()`, `splitlines` where used, `join`, `strip`, `startswith`, `endswith`, `replace`, comparison of `str` | `Py.v`, `Pape.words`, `Xri.replace1` |
| `int(str)`, `str(int)`, `'%x'`, `'%02X'` | `Py.v`, `FileStore.v` |
| `dict` (insertion order), `sorted`, `list.sort` (stable) | `Py.v` |
| `str.encode`, `bytes.decode` for UTF-8, `errors='replace'` | `Utf8.v`, `UrlLib.v` |
| `binascii.b2a_base64`, `a2b_base64` (lenient, as in CPython) | `CryptUtil.v` |
| `urllib.parse`: `quote`, `unquote`, `parse_qsl`, `urlencode`, `urlsplit`, `urlunsplit`, `urlparse`, `urldefrag` | `UrlLib.v` |
| `re` patterns of `urinorm`, `xri`, `pape`, `association`: matched by hand-written recursive functions | the module that uses them |
| `float` arithmetic and comparison, `'%0.1f'` | `Accept.v`, on `Coq.Floats.SpecFloat` (integers, no primitive floats) |
| `time.gmtime`, `strftime`, `strptime` for one format, `calendar.timegm` | `Nonce.v` |
| DB API: `cursor`, `execute`, `commit`, `rollback`, IntegrityError and OperationalError | `SqlTxn.v`, `SqlConc.v` |
| `os.open(O_EXCL)`, `rename`, `unlink`, `listdir` | `FileStore.v`, `FileConc.v`, `FileSys.v`, `FileCrash.v` |
| `mkstemp`, `fdopen`, `write`, `fsync`, `close`, `read` | `FileSys.v`, `FileCrash.v` |

## Testing the theorems

`seeded/LOG.jsonl` lists wrong programs: one definition of the model was edited
as a programmer might get it wrong, the development rebuilt, and the theorems
that no longer prove recorded.  Where none failed a theorem was added or
tightened, as recorded there.
