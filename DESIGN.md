# Formal model of ldaptor in Rocq: design

The code under study is `/repo` (ldaptor, python). The model is in `rocq/theories`.
It is written by hand from the source text. Nothing of `/repo` was run or changed.

## 1. How the model is built

* Python `bytes` are `list byte` (`Coq.Init.Byte`), so a byte is a byte by typing.
* Python `str` is a list of code points (`list Z`).
* Python `int` is `Z`, unbounded.
* An exception is a value: every function that can raise returns `res A := Ok a | Err e`.
* `while` loops and recursion over bytes that are not structural take fuel. Running out of
  fuel is the distinct error `EFuel`. Theorems either show that it cannot occur or exclude it.
* Things outside the code (hash functions, Unicode case folding, other peers) are explicit
  function arguments or adversarial event lists; the theorems quantify over them.
* Each definition cites the lines of `/repo` that it models.

File layout: `XxxModel.v` has definitions only; `XxxSpec.v` the independent specifications;
`XxxProofs.v` lemmas; `PropsXxx.v` the property theorems, each closed by `exact`, followed by
`Print Assumptions` and by an `Example` with a concrete case.

A property that turns out false of the code gets a theorem `..._refuted` with a concrete
witness, plus a `..._partial` theorem for the part that does hold.

## 2. Plan for each property

| id | what is modelled | how it is proved |
|----|------------------|------------------|
| C01 | int2ber / ber2int on Z and bytes | round trip by well-founded induction on the magnitude; minimality against an independent two's complement value |
| C02 | int2berlen / berDecodeLength | round trip with arbitrary suffix |
| C03 | universal BER classes, decoder contexts | induction on the value tree |
| C04 | same | prefix lemma on the TLV header |
| C05 | berDecodeObject / berDecodeMultiple with any class table | bounds lemma; fuel = length suffices |
| C06 | same, plus the receive loop | expected false: nested overrun and indefinite length; refute, and prove the part for well-formed headers |
| C07 | dataReceived loop of client and server | stability of decoding under extension, then induction on segments; unknown top-level tags expected to break it |
| C08 | same plus LDAPMessage | from C07, C09, C10 |
| C09 | the request classes and decoder contexts of pureldap | per-class round trip lemmas under the right context stack |
| C10 | the response classes | same |
| C11 | filter classes | induction on the filter with the context invariant |
| C12 | asText and a hand-written model of the pyparsing grammar | induction on filters with a "parser stops at )" invariant |
| C13 | escape and the same grammar | corollary form of C12 with arbitrary template around the value |
| C14, C78 | getIdentitySearch, requestAvatarId | false in general: refuted with injecting names; proved for names without special characters, for escaped names, and what a successful login needs |
| C15 | escape / unescape / _splitOnNotEscaped | induction on the string |
| C16 | DN, RDN, attribute type and value classes | via C15 |
| C17 | same | via C16 on parser outputs |
| C18 | `__eq__`, `__hash__` | equivalence by cases; hash part expected false (case) |
| C19 | contains, up | suffix characterisation by induction |
| C20 | `__lt__`, `__gt__` ... | expected false (`__gt__` recurses for ever) |
| C21 | LDAPAttributeSet with str and bytes values | expected false for binary values; partial for decodable values |
| C22 | diff, patch, `__eq__` | expected false for removed attributes; partial up to empty attributes |
| C23 | diffTree, subtree, operations on trees | induction on trees |
| C24 | patch methods | against a value-set specification |
| C25 | ModifyOp.patch | expected false (not atomic); partial for the failing first modification |
| C26 | asLDAP / fromLDAP | round trip through C09 |
| C27 | match | induction on the filter against a boolean reading |
| C28 | the substring branch of match | expected false; partial for patterns of the simple shapes |
| C29 | search, subtree | induction on trees, permutation with the scope set |
| C30 | search with failing match | expected false; refute |
| C31 | heap of in-memory entries; add, delete, lookup | invariant over histories, refinement to an abstract map |
| C32 | move | lookups and attributes after a move that succeeds; refuted several ways otherwise |
| C33 | addChild keyed by text | expected false for case variants; partial |
| C34 | BaseLDAPServer.handle and LDAPServer handlers | case analysis over outcomes, induction over request lists |
| C35 | checkControls in every handler | case analysis |
| C36 | handle_LDAPBindRequest, `_bind` | invariant over bind sequences; "failed bind is anonymous" expected false |
| C37 | sshaDigest, base64, setPassword, `_bind`, hash as argument | base64 round trip |
| C38 | extended request handler | case analysis over decoded fields |
| C39 | search entry filtering | by list reasoning |
| C40 | LDAPClient state machine | invariant over event lists |
| C41 | same | invariant |
| C42 | StartTLS in the same machine with the buffer | expected false for buffered plaintext and pipelined sends; partial |
| C43 | JournaledLDAPAttributeSet, commit, undo | simulation between local state and journal replay |
| C44 | commit as two events | expected false; refute; partial when nothing is in flight |
| C45 | state checks | case analysis over the whole API |
| C46 | _cbSearchMsg | expected false for sizeLimitExceeded; partial |
| C47 | asLDIF, toWire, LDIF parser, LineReceiver | round trip; long lines expected to break it |
| C48 | LineReceiver + LDIF | chunk induction |
| C49 | lineReceived | direct |
| C50 | connectionLost | expected false for a cut after the dn line |
| C51 | delta.asLDIF, LDIFDelta | round trip |
| C52 | put, addChild, commit and move as lists of file-system steps | a crash may stop any prefix, or cut a write short; refuted for move |
| C53 | lookup, children, addChild, delete, deleteChild, move on a file-system model | refinement of a map; refuted for left-over directories, other spellings and some moves |
| C54 | path building and path resolution | no outside file read or changed for RDNs without slashes; refuted with slashes |
| C55 | ProxyBase queueing | invariant over event lists, with hooks that answer at once or later; refuted: a hook that answers later changes the order of requests |
| C56 | dseq chaining with deferreds | invariant over schedules; failure case expected false |
| C57 | forwarding of controls, abandon | expected false; refute |
| C58 | Proxy with the class attribute | refuted: a request waiting on another connection is dropped; proved while nothing waits when another server comes up |
| C59 | merger queue | invariant over interleavings; false for compare requests, refuted; a lost backend leaves the request unanswered |
| C60 | svcbindproxy | invariant by phase over any backend behaviour; no services with fallback, and anonymous binds, refuted |
| C61 | freeNumberGuesser | binary search invariant; supplied max expected to break it |
| C62 | dns functions | bit-level reasoning on Z |
| C63 | ldaperrors.get and the server's use | table lookup |
| C64 | _findOverRide | induction on the DN |
| C65 | schema parse and print | every text of the grammar is read as its description, every description's text is in the grammar, so round trip; refuted for one superior in parentheses and for text outside the grammar |
| C79 | order of object class descriptions | an order among descriptions with names; refuted in general: a ring when one has no name, and <= is not total |
| C80 | loading LDIF | exactly the entries of the file, for entries in order with names spelled one way; refused otherwise; a directory written and loaded is the same; refuted: no entry (never fires), two spellings |
| C81 | comparing filters | equal filters have the same parts up to order, except that and/or are not told apart; with one connective they select the same entries; exact for flat ones; refuted: and = or, reordering below the top or a not, TypeError, both == and !=, no hash |
| C84 | simple proxy and merging server: the client goes | invariants over all interleavings (SimpleProxyEnd, MergerEnd); refuted for servers that connect too late |
| C85 | fetchschema.py: the schema of a server | the two searches with all responses; exact result, and every way to fail; refuted: a schema without attribute types, object classes with extensions |
| C86 | ldapsyntax.py: namingContext | the result is an announced context that holds the entry; refuted: the innermost, unreadable contexts |
| C87 | config.py: getBaseDN, getIdentityBaseDN | any text can be written in a file and is given back; own value first; refuted: a lone percent sign, text that is no DN |
| C88 | generate_password.py | the output in any pieces gives the lines; refuted: octets never give a password, a wrong count raises after the failure |
| C89 | ldap2passwd.py: _cbSearch | exact line for entries of text; fields read back uniquely; refuted: entries from a server, separators in values, other case |
| C90 | ldap2dnszones.py, ldap2maradns.py: Net | membership is an interval for every mask; refuted: host bits in the address, all records of networks |
| C91 | ldapsyntax.py: setPassword and its plugins | requests in order, none without the one before granted; success and failure as reported; refuted: an end when objectClass is not shown, nothing changed when the call is refused |
| C92 | config.py: loadConfig, useLMhash; smbpassword.py | last setting decides; without it the LanMan attribute is locked in all that is sent; refuted: passwords beyond 128 octets |
| C93 | proxybase.py: handleStartTLSRequest | invariant of traces: TLS once, after the success reply, every StartTLS answered at once with the code that the state calls for; refuted: what follows StartTLS in the same plaintext segment is handled after TLS was started |
| C94 | proxybase.py: _failedToConnectToProxiedServer | trace invariant: the client is disconnected only after all bind requests were answered with unavailable; and they are when connecting or TLS fails |
| C95 | ldapsyntax.py: LDAPEntryWithAutoFill; autofill/ | invariant over runs of assignments, deletions, filler starts and answers: identifiers follow numbers, the entry is what ordinary edits give; refuted for add/remove on the set, other spellings, entries in bytes, sambaAccount started late, failed starts |
| C96 | protocols/ldap/ldapserver.py, with a directory that answers later | invariant over the trace of requests, calls, firings and messages; every unanswered request waits for a call; refuted: requests during a bind run as the old user, crossing binds, failed binds keep the old user, requests go on after the connection is lost or an abandon, entries after the result if the directory calls back late |
| C97 | ldapclient.py and ldapserver.py at the two ends of a connection | the two models joined by two byte streams that are cut anywhere and delayed; invariant: what came and what is in the buffers is a prefix of what was written, message by message; agreement and completion from C40, C41 and C96; nothing raises and all completes if the user keeps to the rules and the directory calls back for no ended search; refuted: an abandon request, a search sent with `send`, and an entry after the end of its search make the client raise |
| C98 | _scripts/ldifdiff.py, _scripts/ldifpatch.py | the difference of C23 taken through the text: each operation is written and read back (C51), the re-read one has the same effect up to the order of values, so the tree difference is proved for operations that are rewritten before they are applied; the patched tree is written and loaded (C80); the scripts as they are end with TypeError for every file |
| C99 | _scripts/ldap2pdns.py: PdnsPipeProtocol | invariant over all interleavings of lines, connections and searches: the work list is the lines not yet answered, each waiting line is in exactly one of the queue for the connection, the searches that run, or the hands of the current callback; the answer of a line is a relation on the trace, shown to have at most one value; refuted: a factory that raises blocks all later questions for ever, and the delimiter is text so that no octets are ever split |
| C100 | _scripts/ldap2pdns.py: the questions and their filters | a relation between lines and questions, shown equal to what the code does with a line; the filter text parses to the meant filter by C13; refuted: names with asterisks or parentheses, values as octets, values with line feeds, names in capitals |
| C101 | _scripts/ldap2dhcpconf.py: what is found to what is printed | the entries are read by a relation that has one value; the addresses of a network split into the blocks of groups and a rest, by induction on its hosts with the set that is left; sets have any order; refuted: octets from a server raise, a network address with host bits has no addresses, the first network and not the narrowest, members spelt in another way, values that are not quoted |
| C102 | _scripts/passwd.py: the client | one invariant ties the Deferred of each DN to the events about it; every trace has the shape of the specification, and each event comes from an input; refuted: a prompt that raises leaves the tool running for ever, a generator that fails or a DN that cannot be read leaves the exit status 0 |
| C103 | _scripts/namingcontexts.py | what is seen of a server equals the run of that server by itself, by induction on the inputs; one grammar of the ways of a server; refuted: a server that refuses the connection or the bind keeps the tool running for ever |
| C104 | _scripts/ldap2dnszones.py: what is found to the files | the loops are shown equal to a relation on texts (files_ok), by induction on the entries; all or nothing at the end; refuted: the broadcast address cannot be computed (C90), so that with one network the exporter always fails, and without one it writes no record |
| C105 | _scripts/find_server.py | the trace is the questions, then what the first answer to each says, then the stop, by induction on the answers; refuted: a DN without a domain asks for the domain None, a DN that cannot be read ends the tool |
| C106 | _scripts/getfreenumber.py, numberalloc.py: search by search | invariant: the lower end was found, the upper was not, and their distance is at most 500 and halves; refuted: the least free number, an end while every number is found |
| C107 | _scripts/rename.py | every run is one of the courses of a grammar, by induction on the inputs; where the password comes from is a relation of its own; refuted: a password on descriptor 0 |
| C83 | usage.py and config.py: where the server is | dict with DN keys as an association list with an equivalence on keys; exact characterisation of the server; refuted: other spelling, colons, IPv6, empty host, the scope "one" |
| C82 | comparing entries and operations | same LDIF and hash when DNs are spelled alike, for any mixture of text and bytes; equal modifications take equal entries to equal entries; refuted: hash with other spelling, refused deletes |
| C66 | autofill formulas | parity |
| C67 | ldapconnector/autofill domain name functions | direct |
| C68 | the encoders against RFC 4511 as an independent ASN.1 description | induction on the description |
| C69 | _encoder.py | UTF-8 round trip |
| C70 | dns.ptrSoaName | refute for short prefixes; partial for whole octets |
| C71 | server search over a tree | exact answer set, from C29 and C39 |
| C72 | server handlers | each request has the effect it names on the directory |
| C73 | _canRemove, _canRemoveAll | invariant over edit sequences; false for bytes names |
| C74 | the client's operations | the request sent, and its effect at ldaptor's own server |
| C75 | fetch | what the search found becomes the entry; stale and text-named attributes refuted |
| C76 | ProxyBase.connectionLost | invariant over event lists; false while TLS is set up |
| C77 | requests after the server has gone | refuted for all continuations |

## 3. Trusted base

### 3.1 Coq

* The kernel of Coq 8.16.1, including its virtual machine (`vm_compute` closes concrete cases).
* No axiom is declared. No kernel check is switched off.
* `Print Assumptions` follows every property theorem in the `PropsXxx.v` files. For each of them it
  prints "Closed under the global context": no axiom of the standard library is used either.
  (The whole-library report of `coqchk` lists the axioms of `ssrunder`, a module loaded with the
  standard library's tactics; no theorem depends on them.)
* Only the standard library is used.

### 3.2 Code that is modelled

| file in /repo/ldaptor | modelled in | not modelled |
|---|---|---|
| protocols/pureber.py | BerModel, LdapModel, FilterEqModel (comparison, hash) | `__repr__`, the list methods of sequences |
| protocols/pureldap.py | LdapModel, FilterTextModel (`asText`, escape functions), FilterEqModel (comparing filters) | `__repr__`; filters that mix escapers, or hold bytes, have no text |
| ldapfilter.py | FilterTextModel | parseMaybeSubstring; positions in InvalidLDAPFilter |
| usage.py (opt_service_location, postOptions_scope), config.py (the rest of LDAPConfig), ldapconnector.py (pickServer with text ports) | ConfigModel | reading the files (a file is its sections with their options, DEFAULT behind), bind options; int() of ports and str.isspace are parameters |
| config.py (getIdentitySearch), checkers.py (LDAPBindingChecker) | IdentityModel | other options, makeFilter; user names that are bytes; formats other than `%%` and `%(name)s` |
| schema.py (all the descriptions: parsers, printers, comparison) | SchemaModel | text as str; setting attributes by hand; __repr__; comparison with other types; parsing an object twice |
| _encoder.py | Utf8Model | WireStrAlias and its deprecation warnings |
| protocols/ldap/distinguishedname.py | DnModel | `__repr__`, the deprecated `toWire`/`__str__` alias |
| attributeset.py, entry.py | EntryModel, LdifModel (text), PwModel (passwords), OpEqModel (hash) | `__repr__`, `copy`, diffTree on connected entries |
| delta.py | EntryModel, DeltaModel, LdifModel, TreeDiffModel (patch), OpEqModel (comparison, hash) | `__repr__` |
| entryhelpers.py | MatchModel, InmemModel, TreeDiffModel | children iterated through callbacks; they are lists. In the tree difference sets of RDNs keep the order of insertion (they are sorted afterwards) |
| inmemory.py | InmemModel, LoadModel (fromLDIFFile) | connectionLost with another reason; overridden lookupFailed, addFailed |
| ldiftree.py | LdifTreeModel, FsModel (the file system) | `parent`, `__repr__`, comparison, the command line part; searches through children (entryhelpers, as in the in-memory directory) |
| protocols/ldap/ldif.py, ldifprotocol.py, ldifdelta.py | LdifModel | LDIF with `url:` values (the code raises) |
| protocols/ldap/ldapclient.py | ClientModel, StreamModel, PairModel (with a server) | debug logging |
| protocols/ldap/ldapserver.py | ServerModel, StreamModel, LateModel, PairModel (with a client) | debug logging |
| protocols/ldap/ldapsyntax.py | SyntaxModel | see the head of the file |
| ldapsyntax.py (setPassword, its plugins), samba/smbpassword.py, config.py (loadConfig, useLMhash) | SetPwModel | plugins of subclasses; passlib (a parameter); configparser's syntax; passwords that are text |
| ldapsyntax.py (LDAPEntryWithAutoFill), autofill/ | AutofillModel | int() on text other than digits and on bytes (parameters); the searches of posixAccount (see UtilModel for the guessing); a filler list changed while it is notified |
| protocols/ldap/fetchschema.py, ldapsyntax.py (result of namingContext) | FetchSchemaModel | |
| generate_password.py, _scripts/ldap2passwd.py (_cbSearch), _scripts/ldap2dnszones.py and _scripts/ldap2maradns.py (Net, formatIPAddress, formatPTR) | ToolsModel | starting the process and main programs; searches of the tools; files written |
| _scripts/ldifdiff.py, _scripts/ldifpatch.py | DiffToolModel | options; messages on standard error; the reactor |
| _scripts/ldap2pdns.py: PdnsPipeProtocol | PdnsModel | main, options and configuration; the connector and MyLDAPClient; StandardIO; LineReceiver but for its delimiter |
| _scripts/ldap2dhcpconf.py | DhcpModel | main, options, the filters of its searches and the connection; texts on the error output |
| _scripts/passwd.py (PasswdClient, parseArgs) | PasswdModel | other options, the password file, the connector; what Twisted logs; the inside of setPassword (in its own model) |
| _scripts/namingcontexts.py | ContextsModel | the protocol below (in its own model), what Twisted logs; that errback(None) raises when no exception is being handled is taken from Twisted |
| _scripts/ldap2dnszones.py (from the results of the searches to the files) | ZonesModel | options, the filters of its searches, the connection; file names that coincide; errors of the file system |
| _scripts/find_server.py | FindServerModel | the resolver (its answers are inputs, and come after all questions were asked), the text of %d and of a target |
| _scripts/getfreenumber.py (main), with the searches of numberalloc.py as inputs | FreeNumberModel | options, the connection, the search below (only the number of entries is kept), the repr of the failure that is printed as well |
| _scripts/rename.py | RenameModel | options, the connection and the protocol below (their results are inputs), readline() and getpass() (inputs) |
| protocols/ldap/proxy.py | SimpleProxyModel | the command line part |
| protocols/ldap/merger.py | MergerModel | the command line part |
| protocols/ldap/svcbindproxy.py | SvcModel | the command line part; waiting for the connection (as in the simple proxy) |
| protocols/ldap/proxybase.py | ProxyModel | debug logging |
| numberalloc.py, dns.py, protocols/ldap/ldaperrors.py, ldapconnector.py, autofill/ (the formulas) | UtilModel | everything that talks to the network |

Not modelled at all: interfaces.py, testutil.py, the rest of `_scripts`.

### 3.3 What is assumed about the world outside the code

* Python: `bytes`, `str`, `int`, `dict` (insertion order), `set` (some order, left open), `sorted`
  (stable), strict UTF-8. `str.lower` and `int(text, 16)` on characters outside ASCII are arbitrary
  functions, given as arguments; some theorems ask that `lower` agree with ASCII on ASCII.
* `base64`, `binascii` and `encodebytes` are modelled from their documentation. `sha1` is an arbitrary
  function with 20 octets of output.
* pyparsing and configparser are modelled by hand from their source (pyparsing 3, Python 3.11), as far as
  ldapfilter.py and config.py use them. Nothing checks these models against the libraries.
* The file system is POSIX without symbolic links. No other process changes it. Calls take effect in
  order: nothing written is lost or reordered when the machine stops. Path lengths have no limit.
* Python's recursion limit is the argument `depth` where recursion depends on the data.
* Twisted: `LineReceiver` is modelled from its documentation. A Deferred runs its callbacks at once when it fires and keeps their
  exceptions; it is never cancelled. An exception that leaves `dataReceived` ends the connection. In the
  directory and the server, Deferreds have already fired, as those of the in-memory directory have;
  LateModel has the server in front of a directory whose Deferreds fire later (the directory itself is an input there).
* The user of the client is an oracle that may call any method at any callback.
* Messages of exceptions are an arbitrary function (`text`) of the exception.

### 3.4 Where the code differs from what its users may expect

Each is a theorem `..._refuted` with a concrete witness. Beside it, a `..._partial` theorem covers the part that holds.
The refuted theorems are listed with their property in `MANIFEST.json`.

### 3.5 Tests against wrong programs

`seeded/LOG.jsonl` has one line for each edit of the model that was tried: which theorems failed, and
which were tightened because none did.
