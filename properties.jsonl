{"id": "C01", "title": "BER integers survive the wire", "statement": "Decoding the content octets produced for an integer gives back the same integer, and the octets are the shortest two's complement form.", "quantifier": "every Python integer, positive, zero or negative, of any size", "why_tests_cant": "Integers are unbounded; tests try a few boundary values only.", "anchors": ["ldaptor/protocols/pureber.py: int2ber, ber2int, BERInteger"]}
{"id": "C02", "title": "BER lengths survive the wire", "statement": "Decoding an encoded length, followed by any bytes, gives back that length and the number of octets it took. Encoding refuses only lengths that need more than 127 length octets.", "quantifier": "every non-negative length and every trailing byte string", "why_tests_cant": "The length-of-length form has unboundedly many sizes and arbitrary trailing data.", "anchors": ["ldaptor/protocols/pureber.py: int2berlen, berDecodeLength"]}
{"id": "C03", "title": "BER objects survive the wire inside any trailing data", "statement": "Decoding the encoding of any universal BER value (boolean, integer, octet string, null, enumerated, sequence, set, arbitrarily nested), followed by any bytes, yields an object equal to the original and reports exactly the number of bytes of its encoding.", "quantifier": "all finite trees of BER values and all trailing byte strings", "why_tests_cant": "Nesting depth, widths and contents are unbounded.", "anchors": ["ldaptor/protocols/pureber.py: berDecodeObject, berDecodeMultiple, BERSequence, BERSet, BEROctetString, BERBoolean, BERNull, BEREnumerated"]}
{"id": "C04", "title": "A cut-off BER object is never mistaken for a complete one", "statement": "Decoding any proper non-empty prefix of an encoded object reports insufficient data: it yields no object and no other error.", "quantifier": "all encoded objects and all cut points", "why_tests_cant": "Every cut point of every message must be covered, including inside multi-octet lengths.", "anchors": ["ldaptor/protocols/pureber.py: need, berDecodeLength, berDecodeObject"]}
{"id": "C05", "title": "The BER decoder makes progress and stays in bounds", "statement": "On any input whatsoever, a decode that returns normally on non-empty input consumes at least two bytes and no more than it was given, and decoding a whole buffer into a list always ends (it never loops).", "quantifier": "all byte strings, including hostile ones, and all decoder contexts", "why_tests_cant": "Hostile inputs are unbounded; a single non-advancing input would hang a server.", "anchors": ["ldaptor/protocols/pureber.py: berDecodeObject, berDecodeMultiple"]}
{"id": "C06", "title": "Insufficient data means that more data can help", "statement": "When the receive loop of a client or server waits for more data, some continuation of the bytes received so far makes a message (or an error) come out. A connection is not stalled for ever by bytes already received.", "quantifier": "all byte strings received and all continuations", "why_tests_cant": "It quantifies over every possible future of the connection.", "anchors": ["ldaptor/protocols/pureber.py: berDecodeLength, need", "ldaptor/protocols/ldap/ldapclient.py: LDAPClient.dataReceived", "ldaptor/protocols/ldap/ldapserver.py: BaseLDAPServer.dataReceived"]}
{"id": "C07", "title": "Message framing does not depend on TCP segmentation", "statement": "The sequence of LDAP messages handed to the handler, the point at which an error stops the loop and the bytes left over depend only on the concatenation of the bytes received, not on how they were cut into dataReceived calls.", "quantifier": "all byte streams and all ways to cut them into segments", "why_tests_cant": "There are exponentially many segmentations of each stream.", "anchors": ["ldaptor/protocols/ldap/ldapclient.py: LDAPClient.dataReceived", "ldaptor/protocols/ldap/ldapserver.py: BaseLDAPServer.dataReceived"]}
{"id": "C08", "title": "Pipelined messages are all delivered, in order", "statement": "If a peer sends the encodings of any list of LDAP messages, in any segmentation, the other side handles exactly those messages in that order and its buffer ends empty.", "quantifier": "all finite lists of messages and all segmentations", "why_tests_cant": "Unbounded pipelining and segmentation.", "anchors": ["ldaptor/protocols/ldap/ldapclient.py: LDAPClient.dataReceived", "ldaptor/protocols/ldap/ldapserver.py: BaseLDAPServer.dataReceived", "ldaptor/protocols/pureldap.py: LDAPMessage"]}
{"id": "C09", "title": "Every LDAP request survives the wire", "statement": "A request message (bind simple or SASL, unbind, search, modify, add, delete, modify DN, compare, abandon, extended) with any message id and any controls decodes to the same request, id and controls, in the decoder context that the server uses.", "quantifier": "all message ids, all field contents, all attribute and modification lists, all control lists", "why_tests_cant": "Contents and list lengths are unbounded and the decoder's context stack depends on nesting.", "anchors": ["ldaptor/protocols/pureldap.py: LDAPMessage, LDAPBindRequest, LDAPSearchRequest, LDAPModifyRequest, LDAPAddRequest, LDAPDelRequest, LDAPModifyDNRequest, LDAPCompareRequest, LDAPAbandonRequest, LDAPExtendedRequest, LDAPControls"]}
{"id": "C10", "title": "Every LDAP response survives the wire", "statement": "A response message (bind response, search entry, search done, search reference, modify, add, delete, modify DN, compare, extended) with any id and controls decodes to the same response, id and controls, in the decoder context that the client uses.", "quantifier": "all message ids, result codes, DNs, messages, entries, control lists", "why_tests_cant": "Contents and list lengths are unbounded.", "anchors": ["ldaptor/protocols/pureldap.py: LDAPResult, LDAPBindResponse, LDAPSearchResultEntry, LDAPSearchResultDone, LDAPSearchResultReference, LDAPModifyResponse, LDAPAddResponse, LDAPDelResponse, LDAPModifyDNResponse, LDAPCompareResponse, LDAPExtendedResponse"]}
{"id": "C11", "title": "Search filters survive the wire", "statement": "A search filter tree (and, or, not, equality, substrings, greater-or-equal, less-or-equal, present, approximate, extensible), nested to any depth, decodes to the same filter.", "quantifier": "all filter trees", "why_tests_cant": "Context-specific tags are reinterpreted at each nesting level, so correctness needs induction on depth.", "anchors": ["ldaptor/protocols/pureldap.py: LDAPFilter_and, LDAPFilter_or, LDAPFilter_not, LDAPFilter_equalityMatch, LDAPFilter_substrings, LDAPFilter_greaterOrEqual, LDAPFilter_lessOrEqual, LDAPFilter_present, LDAPFilter_approxMatch, LDAPFilter_extensibleMatch"]}
{"id": "C12", "title": "Filter text round trip", "statement": "Printing a filter as text and parsing the text gives back the same filter.", "quantifier": "all filter trees whose attribute names and matching rules are in the grammar and whose values are any non-empty text", "why_tests_cant": "Nesting, value contents and the grammar's longest-match choices are unbounded.", "anchors": ["ldaptor/protocols/pureldap.py: escape, LDAPFilter_*.asText", "ldaptor/ldapfilter.py: parseFilter"]}
{"id": "C13", "title": "Escaped values cannot inject filter syntax", "statement": "A user-supplied string passed through the filter escape function and placed in value position inside any filter template is parsed back as exactly that string, and the structure of the surrounding filter does not change.", "quantifier": "all user strings and all surrounding filters", "why_tests_cant": "Security must hold for every attacker-chosen string.", "anchors": ["ldaptor/protocols/pureldap.py: escape", "ldaptor/ldapfilter.py: parseFilter"]}
{"id": "C14", "title": "Identity search treats a login name as data", "statement": "The search filter built from a configured template and a login name has the template's structure whatever the login name.", "quantifier": "all login names", "why_tests_cant": "Security must hold for every attacker-chosen string.", "anchors": ["ldaptor/config.py: LDAPConfig.getIdentitySearch", "ldaptor/checkers.py: LDAPBindingChecker.requestAvatarId"]}
{"id": "C15", "title": "DN values survive escaping", "statement": "Unescaping the escaped form of any attribute value gives back the value, and the escaped form contains no unescaped separator.", "quantifier": "all strings of any characters", "why_tests_cant": "Character sequences are unbounded, and interaction of leading, trailing and hex escapes is subtle.", "anchors": ["ldaptor/protocols/ldap/distinguishedname.py: escape, unescape, _splitOnNotEscaped"]}
{"id": "C16", "title": "DN text round trip", "statement": "Parsing the text of a DN gives back an equal DN, for DNs built from any RDNs (also multi-valued).", "quantifier": "all lists of RDNs with arbitrary values and attribute types without '='", "why_tests_cant": "Unbounded lists and contents.", "anchors": ["ldaptor/protocols/ldap/distinguishedname.py: DistinguishedName, RelativeDistinguishedName, LDAPAttributeTypeAndValue"]}
{"id": "C17", "title": "DN text normalises in one step", "statement": "For any text that parses as a DN, printing and parsing again gives an equal DN, and printing that one gives identical text.", "quantifier": "all texts accepted by the parser", "why_tests_cant": "Every accepted text must be covered, including odd spacing and escapes.", "anchors": ["ldaptor/protocols/ldap/distinguishedname.py: DistinguishedName.__init__, DistinguishedName.getText"]}
{"id": "C18", "title": "DN equality and hashing agree", "statement": "DN equality is an equivalence relation, and equal DNs have equal hashes, so that DNs can be used as dictionary keys and set members.", "quantifier": "all pairs and triples of DNs", "why_tests_cant": "Universally quantified over pairs; tests use chosen pairs.", "anchors": ["ldaptor/protocols/ldap/distinguishedname.py: LDAPAttributeTypeAndValue.__eq__, LDAPAttributeTypeAndValue.__hash__, RelativeDistinguishedName.__hash__, DistinguishedName.__hash__"]}
{"id": "C19", "title": "DN containment is the ancestor-or-self order", "statement": "a contains b exactly when a's RDNs are a suffix of b's (up to DN equality). Containment is reflexive, transitive, antisymmetric up to equality, and every DN is contained in its parent and in the root.", "quantifier": "all DNs", "why_tests_cant": "Order laws range over all triples.", "anchors": ["ldaptor/protocols/ldap/distinguishedname.py: DistinguishedName.contains, DistinguishedName.up"]}
{"id": "C20", "title": "RDN and attribute comparison is total and consistent", "statement": "Comparing two attribute-value pairs or RDNs with <, <=, >, >= always returns, and the answers agree with equality: never a<b together with a==b.", "quantifier": "all pairs", "why_tests_cant": "Needs every pair; a non-terminating comparison shows only for particular pairs.", "anchors": ["ldaptor/protocols/ldap/distinguishedname.py: LDAPAttributeTypeAndValue.__lt__, LDAPAttributeTypeAndValue.__gt__, LDAPAttributeTypeAndValue.__le__, RelativeDistinguishedName.__lt__"]}
{"id": "C21", "title": "Attribute values can be added and removed whatever their bytes", "statement": "After adding a value to an attribute it is a member; after removing it, it is not a member in text or bytes form; adding never makes the set hold both the text and the bytes form of one value.", "quantifier": "all sequences of add and remove with arbitrary text and binary values", "why_tests_cant": "Histories and byte contents are unbounded.", "anchors": ["ldaptor/attributeset.py: LDAPAttributeSet", "ldaptor/_encoder.py: get_strings"]}
{"id": "C22", "title": "diff then patch reproduces the target entry", "statement": "Applying the modifications computed between two entries with the same DN to the first one makes it equal to the second.", "quantifier": "all pairs of entries", "why_tests_cant": "All attribute maps; case variants and emptied attributes are easily missed.", "anchors": ["ldaptor/entry.py: BaseLDAPEntry.diff, BaseLDAPEntry.__eq__", "ldaptor/delta.py: ModifyOp.patch, Add.patch, Delete.patch"]}
{"id": "C23", "title": "Tree diff then patch reproduces the target tree", "statement": "Applying the operations computed between two trees, in the order given, to the first tree succeeds at every step and makes it equal to the second.", "quantifier": "all pairs of finite trees", "why_tests_cant": "Order of operations (parents first on add, children first on delete) must be right for every tree shape.", "anchors": ["ldaptor/entryhelpers.py: DiffTreeMixin.diffTree, SubtreeFromChildrenMixin.subtree", "ldaptor/delta.py: AddOp.patch, DeleteOp.patch, ModifyOp.patch"]}
{"id": "C24", "title": "A modification list acts as the LDAP modify rules say", "statement": "Applying add, delete and replace modifications in order has the value-set effect that LDAP defines, and touches no attribute that is not named.", "quantifier": "all entries and all modification lists", "why_tests_cant": "Unbounded lists over unbounded maps.", "anchors": ["ldaptor/delta.py: Add.patch, Delete.patch, Replace.patch, ModifyOp.patch"]}
{"id": "C25", "title": "A failed modify changes nothing", "statement": "If applying a modification list fails, the entry is as it was before.", "quantifier": "all entries and all modification lists that fail at any position", "why_tests_cant": "Every failure point in every list.", "anchors": ["ldaptor/delta.py: ModifyOp.patch", "ldaptor/protocols/ldap/ldapserver.py: LDAPServer.handle_LDAPModifyRequest"]}
{"id": "C26", "title": "Modify operations survive conversion to LDAP and back", "statement": "A modify operation converted to an LDAP request, encoded, decoded and converted back describes the same modifications in the same order.", "quantifier": "all modification lists with arbitrary keys and values", "why_tests_cant": "Unbounded contents.", "anchors": ["ldaptor/delta.py: ModifyOp.asLDAP, ModifyOp.fromLDAP, Modification.asLDAP"]}
{"id": "C27", "title": "Boolean filters are evaluated as boolean logic", "statement": "Matching an and, or, not, present or equality filter agrees with the boolean reading of the filter over the entry's attributes, for every nesting.", "quantifier": "all filters built from these and all entries", "why_tests_cant": "Unbounded nesting.", "anchors": ["ldaptor/entryhelpers.py: MatchMixin.match"]}
{"id": "C28", "title": "Substring filters match exactly the values of the described shape", "statement": "A substring filter matches an entry exactly when some value is the initial part, then the middle parts in order without overlap, then the final part (case-insensitively).", "quantifier": "all values and all substring patterns", "why_tests_cant": "Overlap bugs depend on the relation between the value and the pattern.", "anchors": ["ldaptor/entryhelpers.py: MatchMixin.match"]}
{"id": "C29", "title": "A search returns each entry in scope exactly once", "statement": "Base, one-level and subtree searches visit exactly the entries in scope, each exactly once, and return those that match.", "quantifier": "all trees, all filters for which matching does not fail", "why_tests_cant": "All tree shapes.", "anchors": ["ldaptor/entryhelpers.py: SearchByTreeWalkingMixin.search, SubtreeFromChildrenMixin.subtree, MatchMixin.match"]}
{"id": "C30", "title": "A successful search is a complete search", "statement": "If a search finishes without an error, every entry in scope that matches the filter has been returned, also when matching fails on some entry.", "quantifier": "all trees, all filters, all places at which matching raises an error", "why_tests_cant": "Errors can be raised at any node.", "anchors": ["ldaptor/entryhelpers.py: SearchByTreeWalkingMixin.search, SubtreeFromChildrenMixin._gotChildren"]}
{"id": "C31", "title": "The in-memory directory is a map from DN to entry", "statement": "After any history of adds and deletes, looking up a DN finds an entry exactly when it was added and not deleted since, and returns the attributes it was added with. Adding twice and deleting a missing or non-leaf entry are refused and change nothing.", "quantifier": "all histories of add, delete and lookup, whether they succeed or fail", "why_tests_cant": "Histories are unbounded.", "anchors": ["ldaptor/inmemory.py: ReadOnlyInMemoryLDAPEntry.lookup, ReadOnlyInMemoryLDAPEntry.addChild, ReadOnlyInMemoryLDAPEntry.deleteChild, ReadOnlyInMemoryLDAPEntry.delete"]}
{"id": "C32", "title": "Moving an entry in memory keeps the directory a map", "statement": "After a successful move the entry (with its descendants) is found under the new DN and not under the old one, can be deleted there, no other entry is lost, and no two entries share a DN.", "quantifier": "all trees, all moves and all later operations", "why_tests_cant": "Needs every history that continues after the move.", "anchors": ["ldaptor/inmemory.py: ReadOnlyInMemoryLDAPEntry.move, ReadOnlyInMemoryLDAPEntry._move2"]}
{"id": "C33", "title": "No two entries of the in-memory directory have equal DNs", "statement": "After any history of adds and deletes, the entries' DNs are pairwise different under DN equality (which ignores case).", "quantifier": "all histories", "why_tests_cant": "Histories are unbounded.", "anchors": ["ldaptor/inmemory.py: ReadOnlyInMemoryLDAPEntry.addChild", "ldaptor/protocols/ldap/distinguishedname.py: LDAPAttributeTypeAndValue.__eq__"]}
{"id": "C34", "title": "Each request gets exactly one final response with its own id", "statement": "For every request other than unbind and abandon, whatever the handler does (returns, raises an LDAP error, raises anything else), the server writes exactly one final response, it carries the request's message id, and its kind matches the request. Unbind and abandon get no response.", "quantifier": "all requests, all handler outcomes, all request sequences", "why_tests_cant": "All outcomes of all handlers and interleavings.", "anchors": ["ldaptor/protocols/ldap/ldapserver.py: BaseLDAPServer.handle, BaseLDAPServer._callErrorHandler, LDAPServer.fail_*"]}
{"id": "C35", "title": "A critical unknown control prevents the operation", "statement": "If any control of a request is marked critical, the server answers unavailableCriticalExtension (12) and the directory and the session are unchanged.", "quantifier": "all requests with at least one critical control at any position", "why_tests_cant": "All control lists and all requests.", "anchors": ["ldaptor/protocols/ldap/ldapserver.py: BaseLDAPServer.checkControls, LDAPServer.handle_*"]}
{"id": "C36", "title": "Bind authenticates", "statement": "After any sequence of binds, the session is bound to an entry only if a bind for that entry's DN presented a password that the entry's userPassword accepts. A failed bind leaves the session anonymous.", "quantifier": "all sequences of bind requests and all directories", "why_tests_cant": "All histories of binds.", "anchors": ["ldaptor/protocols/ldap/ldapserver.py: LDAPServer.handle_LDAPBindRequest", "ldaptor/entry.py: BaseLDAPEntry._bind"]}
{"id": "C37", "title": "Setting a password replaces it", "statement": "After setting a password with any salt, binding with that password succeeds, and binding with another one succeeds only if its salted hash collides. Passwords set earlier no longer work.", "quantifier": "all passwords, salts and entries, for any hash function with fixed-length output", "why_tests_cant": "All passwords; relies on base64 and slicing for every salt length.", "anchors": ["ldaptor/entry.py: sshaDigest, EditableLDAPEntry.setPassword, BaseLDAPEntry._bind"]}
{"id": "C38", "title": "Password modify only touches the bound user's own password", "statement": "The password-modify extended operation changes the directory only when the session is bound, the identity (if given) is the bound DN, a new password is given and no old one is given; it then sets only the bound entry's password. Otherwise an error is returned and nothing changes.", "quantifier": "all request values (also malformed), all sessions", "why_tests_cant": "All field combinations and orders, including hostile ones.", "anchors": ["ldaptor/protocols/ldap/ldapserver.py: LDAPServer.handle_LDAPExtendedRequest, LDAPServer.extendedRequest_LDAPPasswordModifyRequest"]}
{"id": "C39", "title": "Search results carry only requested attributes", "statement": "Each entry sent in answer to a search contains only attributes that were requested (or all if '*' or nothing was requested), with the entry's values, and is sent before the final response with the same id.", "quantifier": "all entries and all requested-attribute lists", "why_tests_cant": "All lists and attribute-case variants.", "anchors": ["ldaptor/protocols/ldap/ldapserver.py: LDAPServer._cbSearchLDAPEntry, LDAPServer._cbSearchGotBase, LDAPServer._cbSearchDone"]}
{"id": "C40", "title": "A client request completes at most once and never hangs after a disconnect", "statement": "In any history of sends, responses and disconnects, each request's result fires at most once; when the connection is lost every outstanding request fails exactly once and none stays pending; sends after that are refused.", "quantifier": "all histories of sends, incoming messages and connection loss", "why_tests_cant": "All interleavings.", "anchors": ["ldaptor/protocols/ldap/ldapclient.py: LDAPClient.send, LDAPClient.send_multiResponse, LDAPClient.handle, LDAPClient.connectionLost"]}
{"id": "C41", "title": "Responses reach the request that caused them", "statement": "Message ids of outstanding requests are pairwise different, and a response is delivered only to the request with the same id.", "quantifier": "all histories, in any order of responses", "why_tests_cant": "All response orders.", "anchors": ["ldaptor/protocols/ldap/ldapclient.py: LDAPClient._send, LDAPClient.handle", "ldaptor/protocols/pureldap.py: alloc_ldap_message_id"]}
{"id": "C42", "title": "TLS starts only after a successful StartTLS exchange on an idle connection", "statement": "The transport is switched to TLS only after a success response to a StartTLS request that was sent while no other request was outstanding, and nothing that was received before the switch is handled after it.", "quantifier": "all histories and all segmentations", "why_tests_cant": "All interleavings and segmentations, including hostile ones.", "anchors": ["ldaptor/protocols/ldap/ldapclient.py: LDAPClient.startTLS, LDAPClient._startTLS, LDAPClient._cbStartTLS, LDAPClient.dataReceived"]}
{"id": "C43", "title": "Committing a client-side entry makes the server agree with it", "statement": "After any sequence of local edits, the modifications that commit sends, applied to the server's copy, give the local entry. Undo restores the last committed state.", "quantifier": "all edit sequences", "why_tests_cant": "All edit histories.", "anchors": ["ldaptor/protocols/ldap/ldapsyntax.py: LDAPEntryWithClient.commit, LDAPEntryWithClient.undo, JournaledLDAPAttributeSet"]}
{"id": "C44", "title": "No edit is lost around a commit", "statement": "Every edit made to a client-side entry is sent by some commit: also one made while an earlier commit waits for its answer.", "quantifier": "all interleavings of edits, commits and answers", "why_tests_cant": "All interleavings.", "anchors": ["ldaptor/protocols/ldap/ldapsyntax.py: LDAPEntryWithClient.commit, LDAPEntryWithClient._commit_success"]}
{"id": "C45", "title": "A deleted client-side entry cannot be used", "statement": "After delete, every read or edit of the entry raises ObjectDeletedError and sends nothing.", "quantifier": "all operation sequences after a delete", "why_tests_cant": "All sequences.", "anchors": ["ldaptor/protocols/ldap/ldapsyntax.py: LDAPEntryWithClient._checkState, LDAPEntryWithClient.delete"]}
{"id": "C46", "title": "The client's search reports an incomplete result unless told not to", "statement": "A client search collects exactly the entries received in order, and fails when the server's final result is an error, including sizeLimitExceeded unless the caller marked it non-fatal.", "quantifier": "all sequences of responses", "why_tests_cant": "All response sequences.", "anchors": ["ldaptor/protocols/ldap/ldapsyntax.py: LDAPEntryWithClient.search, LDAPEntryWithClient._cbSearchMsg"]}
{"id": "C47", "title": "LDIF round trip", "statement": "Parsing the LDIF text written for an entry gives back one entry with the same DN and the same attribute values.", "quantifier": "all DNs and all attribute maps with arbitrary binary values", "why_tests_cant": "All byte values; safe-string, base64 and line-length rules interact.", "anchors": ["ldaptor/protocols/ldap/ldif.py: asLDIF, attributeAsLDIF, base64_encode", "ldaptor/entry.py: BaseLDAPEntry.toWire", "ldaptor/protocols/ldap/ldifprotocol.py: LDIF"]}
{"id": "C48", "title": "LDIF parsing does not depend on read chunks", "statement": "The entries and errors that the LDIF parser produces depend only on the whole text, not on the chunks it is fed in.", "quantifier": "all texts and all ways to cut them", "why_tests_cant": "Exponentially many ways to cut.", "anchors": ["ldaptor/protocols/ldap/ldifprotocol.py: LDIF.lineReceived, LDIF.parseValue", "ldaptor/ldiftree.py: get, _get"]}
{"id": "C49", "title": "LDIF line folding is transparent", "statement": "Folding any line of an LDIF text at any place after its first character (newline, space) does not change what is parsed.", "quantifier": "all lines and all fold positions", "why_tests_cant": "All positions.", "anchors": ["ldaptor/protocols/ldap/ldifprotocol.py: LDIF.lineReceived, LDIF.logicalLineReceived"]}
{"id": "C50", "title": "A truncated LDIF text never yields a damaged entry", "statement": "Parsing any prefix of an LDIF text yields a prefix of the entries of the full text, each one complete, and the end of input is reported as an error when an entry was cut.", "quantifier": "all texts and all cut points", "why_tests_cant": "All cut points.", "anchors": ["ldaptor/protocols/ldap/ldifprotocol.py: LDIF.connectionLost, LDIF.lineReceived"]}
{"id": "C51", "title": "LDIF change records round trip", "statement": "Parsing the LDIF change record written for an add, delete or modify operation gives back an equal operation.", "quantifier": "all operations with arbitrary keys in the grammar and arbitrary binary values", "why_tests_cant": "Unbounded contents.", "anchors": ["ldaptor/delta.py: ModifyOp.asLDIF, AddOp.asLDIF, DeleteOp.asLDIF", "ldaptor/protocols/ldap/ldifdelta.py: LDIFDelta"]}
{"id": "C52", "title": "Writing an entry to the LDIF tree is atomic under crashes", "statement": "If the process stops at any point while an entry is being stored, a later read finds either the complete old entry (or its absence) or the complete new entry, and other entries are unaffected.", "quantifier": "all crash points, all old and new contents, all other files", "why_tests_cant": "All crash points.", "anchors": ["ldaptor/ldiftree.py: _putEntry, put, get"]}
{"id": "C53", "title": "The LDIF tree directory is a map from DN to entry", "statement": "After an entry is stored it is found with its attributes; after it is deleted it is not found.", "quantifier": "all histories of stores and deletes", "why_tests_cant": "All histories.", "anchors": ["ldaptor/ldiftree.py: LDIFTreeEntry.lookup, LDIFTreeEntry._addChild, LDIFTreeEntry.deleteChild, LDIFTreeEntry._delete, LDIFTreeEntry._sync_children"]}
{"id": "C54", "title": "LDIF tree accesses stay below its root directory", "statement": "Every file that is read or written for any DN lies below the tree's root directory.", "quantifier": "all DNs, including hostile ones", "why_tests_cant": "Security must hold for every DN.", "anchors": ["ldaptor/ldiftree.py: get, _get, _putEntry, LDIFTreeEntry.lookup"]}
{"id": "C55", "title": "The proxy forwards queued requests once and in order", "statement": "Requests that arrive before the proxied connection is up are forwarded exactly once, in arrival order, when it comes up, and later ones follow in order.", "quantifier": "all interleavings of requests and connection events", "why_tests_cant": "All interleavings.", "anchors": ["ldaptor/protocols/ldap/proxybase.py: ProxyBase.handle, ProxyBase._establishedTLS, ProxyBase._processBacklog, ProxyBase._forwardRequestToProxiedServer"]}
{"id": "C56", "title": "The proxy keeps response order", "statement": "Responses are sent to the client in the order in which they arrived from the proxied server, whatever the order in which response processing finishes, and all are sent once all processing is done.", "quantifier": "all interleavings of arrivals and completions, including failures", "why_tests_cant": "All schedules.", "anchors": ["ldaptor/protocols/ldap/proxybase.py: ProxyBase._gotResponseFromProxiedServer"]}
{"id": "C57", "title": "The proxy passes a request on unchanged", "statement": "The request that reaches the proxied server carries the client's controls, and an abandon refers to the operation that the client meant.", "quantifier": "all requests and controls", "why_tests_cant": "All histories of message ids.", "anchors": ["ldaptor/protocols/ldap/proxybase.py: ProxyBase._forwardRequestToProxiedServer", "ldaptor/protocols/ldap/ldapclient.py: LDAPClient.send_multiResponse, LDAPClient.send_noResponse"]}
{"id": "C58", "title": "Connections through the simple proxy do not affect each other", "statement": "A request waiting on one proxied connection is not touched by another connection's progress, and each waiting request is forwarded exactly once when its own connection is up.", "quantifier": "all interleavings of several connections", "why_tests_cant": "All interleavings.", "anchors": ["ldaptor/protocols/ldap/proxy.py: Proxy.waitingConnect, Proxy._whenConnected, Proxy._cbConnectionMade"]}
{"id": "C59", "title": "The merging server answers once, successfully if any server did", "statement": "For each request, once every backend has sent its final response, the client receives exactly one final response; it is a success exactly when some backend succeeded. Search entries pass through.", "quantifier": "all interleavings of backend responses over all requests", "why_tests_cant": "All interleavings.", "anchors": ["ldaptor/protocols/ldap/merger.py: MergedLDAPServer._gotResponse, MergedLDAPServer.queue"]}
{"id": "C60", "title": "Service binding succeeds only through a valid service or the user entry", "statement": "A bind through the service-binding proxy succeeds only if the backend accepted the password for a matching service entry or for the user's own entry, and services are tried in the configured order.", "quantifier": "all service lists and backend behaviours", "why_tests_cant": "All backend behaviours.", "anchors": ["ldaptor/protocols/ldap/svcbindproxy.py: ServiceBindingProxy"]}
{"id": "C61", "title": "A number handed out is free", "statement": "The free-number search ends and returns a number that is not in use, not below the minimum.", "quantifier": "all sets of used numbers, all minima and maxima", "why_tests_cant": "All sets of used numbers.", "anchors": ["ldaptor/numberalloc.py: freeNumberGuesser, getFreeNumber"]}
{"id": "C62", "title": "Netmask conversions are inverse", "statement": "The netmask of each prefix length converts back to it, and a netmask that is not a run of ones followed by zeros is rejected.", "quantifier": "all prefix lengths and all 32-bit masks", "why_tests_cant": "2^32 masks.", "anchors": ["ldaptor/dns.py: aton_numbits, netmaskToNumbits, ntoa, aton"]}
{"id": "C63", "title": "Result codes and error classes correspond", "statement": "The exception made for a result code carries that code and message, so an error relayed to a client has the original code.", "quantifier": "all result codes, known and unknown", "why_tests_cant": "All integers.", "anchors": ["ldaptor/protocols/ldap/ldaperrors.py: get, LDAPUnknownError", "ldaptor/protocols/ldap/ldapserver.py: BaseLDAPServer._cbLDAPError"]}
{"id": "C64", "title": "Service location overrides apply to the nearest ancestor", "statement": "The server chosen for a DN is the override of its nearest ancestor-or-self that has one.", "quantifier": "all DNs and all override tables", "why_tests_cant": "All tables and depths.", "anchors": ["ldaptor/protocols/ldap/ldapconnector.py: LDAPConnector._findOverRide"]}
{"id": "C65", "title": "Schema descriptions round trip", "statement": "Parsing the text of an attribute type or object class description gives back an equal description.", "quantifier": "all descriptions with fields in the grammar", "why_tests_cant": "All combinations of optional fields and list lengths.", "anchors": ["ldaptor/schema.py: AttributeTypeDescription, ObjectClassDescription, extractWord, peekWord, parse"]}
{"id": "C66", "title": "Derived Samba identifiers do not clash", "statement": "The user RID and the primary group RID derived from POSIX numbers are injective and never equal one another.", "quantifier": "all uid and gid numbers", "why_tests_cant": "All pairs of integers.", "anchors": ["ldaptor/protocols/ldap/autofill/sambaAccount.py: Autofill_samba", "ldaptor/protocols/ldap/autofill/sambaSamAccount.py: Autofill_samba"]}
{"id": "C67", "title": "Domain name of a DN", "statement": "getDomainName joins, in order, the values of exactly the longest run of trailing single-valued dc RDNs, and returns None exactly when there is none.", "quantifier": "all DNs", "why_tests_cant": "Unbounded DNs mixing dc and other RDNs.", "anchors": ["ldaptor/protocols/ldap/distinguishedname.py: DistinguishedName.getDomainName"]}
{"id": "C68", "title": "Wire format of RFC 4511", "statement": "The octets of every request, response, filter and control are the X.690 definite-length encoding of the ASN.1 value that RFC 4511 assigns to it, with the right tag, order and presence of every field.", "quantifier": "all message ids, requests, responses, filters and control lists", "why_tests_cant": "A round trip cannot see a tag that is wrong on both sides; examples cover a few messages only.", "anchors": ["ldaptor/protocols/pureber.py: int2berlen, int2ber, berSequence", "ldaptor/protocols/pureldap.py: toWire methods and tags"]}
{"id": "C69", "title": "Text and bytes forms determine each other", "statement": "to_bytes and to_unicode are inverse to each other: text that has a UTF-8 form is recovered from it, bytes that decode are recovered by encoding, different texts have different bytes, and exactly the texts without surrogates have a form.", "quantifier": "all texts and byte strings", "why_tests_cant": "Each range of code points has its own form; overlong forms and surrogates are seldom tried.", "anchors": ["ldaptor/_encoder.py: to_bytes, to_unicode, get_strings"]}
{"id": "C70", "title": "The reverse zone name covers exactly the network", "statement": "The reverse DNS zone name for an address and netmask consists of the octets that the mask covers, in reverse order, preceded by octet/bits when the mask ends inside an octet.", "quantifier": "all addresses and all prefix lengths", "why_tests_cant": "2^32 addresses times 33 masks.", "anchors": ["ldaptor/dns.py: ptrSoaName"]}
{"id": "C71", "title": "A server search sends exactly the matching entries in scope, once each, then success", "statement": "In a well-formed in-memory tree whose entries can be written, a search request with an existing base and any filter that can be evaluated is answered by one search result entry for every entry in scope that matches the filter, none for any other entry, none twice, followed by a success result with the request's id.", "quantifier": "all trees, bases, scopes, filters, attribute lists, message ids and session states", "why_tests_cant": "Tests fix a small tree and a handful of filters; omission or repetition of an entry depends on the shape of the tree and the recursion of the search.", "anchors": ["ldaptor/protocols/ldap/ldapserver.py:handle_LDAPSearchRequest", "ldaptor/protocols/ldap/ldapserver.py:_cbSearchGotBase", "ldaptor/inmemory.py:subtree", "ldaptor/entryhelpers.py:search"]}
{"id": "C72", "title": "Server requests change the directory as asked and are answered with the outcome", "statement": "A compare, modify, modifyDN, add or delete request that reaches the server has exactly the effect on the directory of the operation it names, on the entry it names, and is answered with the code of that operation's outcome; over a conversation of adds and deletes the directory is the finite map that the requests describe.", "quantifier": "all directories, request fields, message ids, outcomes and, for add and delete, all sequences of requests", "why_tests_cant": "Tests run one request on a three-entry tree; wrong parent, wrong operation order, or an error reported as success only shows on other trees and other failure causes.", "anchors": ["ldaptor/protocols/ldap/ldapserver.py:handle_LDAPCompareRequest", "ldaptor/protocols/ldap/ldapserver.py:handle_LDAPModifyRequest", "ldaptor/protocols/ldap/ldapserver.py:handle_LDAPModifyDNRequest", "ldaptor/protocols/ldap/ldapserver.py:handle_LDAPAddRequest", "ldaptor/protocols/ldap/ldapserver.py:handle_LDAPDelRequest"]}
{"id": "C73", "title": "The values of the RDN cannot be removed on the client side", "statement": "No edit of a client-side entry removes an attribute value that is part of its RDN, and none makes a commit ask the server to do so.", "quantifier": "all entries, all sequences of edits", "why_tests_cant": "All spellings of names, types of keys and sequences.", "anchors": ["ldaptor/protocols/ldap/ldapsyntax.py: LDAPEntryWithClient._canRemove, LDAPEntryWithClient._canRemoveAll"]}
{"id": "C74", "title": "The client's operations send the request they name", "statement": "move, addChild, delete, setPassword_ExtendedOperation and setPassword_Samba each send exactly one request, with the entry's DN and the arguments given; a successful move gives the entry its new DN, a refused one leaves it; the others succeed exactly when the server says so and otherwise give its error.", "quantifier": "all entries and arguments", "why_tests_cant": "All DNs, attributes and passwords.", "anchors": ["ldaptor/protocols/ldap/ldapsyntax.py: LDAPEntryWithClient.move, LDAPEntryWithClient.addChild, LDAPEntryWithClient.delete, LDAPEntryWithClient.setPassword_ExtendedOperation"]}
{"id": "C75", "title": "fetch makes the entry what the server has", "statement": "fetch refuses when there are unsent edits; otherwise it asks for the entry itself with the names given. Afterwards, for the attributes asked for (all when none is named), the entry and the client's copy of the server's data are what the server sent; the other attributes are untouched. When not exactly one entry is found nothing changes and the caller is told.", "quantifier": "all entries, names given and search responses", "why_tests_cant": "All combinations of held, requested and returned attributes, and of text and octet names.", "anchors": ["ldaptor/protocols/ldap/ldapsyntax.py: LDAPEntryWithClient.fetch, LDAPEntryWithClient._cbFetch"]}
{"id": "C76", "title": "When its client goes, the proxy stops acting for it", "statement": "After the client's connection is lost, ProxyBase passes on no further request of that client, writes nothing more to it, and closes the connection to the proxied server if that is up or comes up later.", "quantifier": "all hooks, all interleavings of events before and after the loss", "why_tests_cant": "All interleavings, in particular a loss while the other connection is being set up.", "anchors": ["ldaptor/protocols/ldap/proxybase.py: ProxyBase.connectionLost, ProxyBase._connectedToProxiedServer, ProxyBase._establishedTLS"]}
{"id": "C77", "title": "A client of the proxy is not left waiting", "statement": "When the proxied server closes its connection, requests of the client are answered with an error, or the client's connection is closed.", "quantifier": "all hooks and all later events", "why_tests_cant": "It is about all continuations.", "anchors": ["ldaptor/protocols/ldap/proxybase.py: ProxyBase._forwardRequestToProxiedServer", "ldaptor/protocols/ldap/ldapclient.py: LDAPClient._send, LDAPClient.connectionLost"]}
{"id": "C78", "title": "A login needs the password", "statement": "The login checker accepts a user name and password only if the search for the name finds exactly one entry and the server accepts a bind as that entry with that password, and it then gives that entry; a user who does not know the password is refused.", "quantifier": "all configurations, names, passwords, and search and bind results", "why_tests_cant": "All combinations of outcomes, and all names and passwords.", "anchors": ["ldaptor/checkers.py: LDAPBindingChecker.requestAvatarId, LDAPBindingChecker._found"]}
{"id": "C79", "title": "Object classes have one order", "statement": "Comparing object class descriptions with <, >, <= and >= agrees with one order: nothing is less than itself, less is transitive, > is < the other way round, and of two descriptions one is <= the other.", "quantifier": "all object class descriptions", "why_tests_cant": "Rings need three descriptions chosen for the purpose; names and OIDs are unbounded.", "anchors": ["ldaptor/schema.py: ObjectClassDescription.__lt__, __gt__, __le__, __ge__, __eq__"]}
{"id": "C80", "title": "Loading LDIF gives the directory it describes", "statement": "fromLDIFFile gives a directory with exactly the entries of the file, each under its name with its attributes, when every entry comes after its parent and no name comes twice; otherwise it fails with noSuchObject or entryAlreadyExists. Writing the entries of a directory in the order of subtree() and loading them gives the same directory.", "quantifier": "all texts, all numbers of entries, all attributes and values, all directories", "why_tests_cant": "The order of the entries, the spelling of names and the shape of the tree can be combined without bound; a file without entries makes the Deferred hang, which no test waits for.", "anchors": ["ldaptor/inmemory.py: InMemoryLDIFProtocol, fromLDIFFile", "ldaptor/entryhelpers.py: SubtreeFromChildrenMixin.subtree", "ldaptor/entry.py: BaseLDAPEntry.items"]}
{"id": "C81", "title": "Equal filters select the same entries", "statement": "Two filters compare equal exactly if they differ at most in the order of the parts of their ands and ors; then they select the same entries, hash alike, and are not unequal.", "quantifier": "all filters of any nesting and any length of their lists, all entries", "why_tests_cant": "The comparison sorts the parts by their octets, at every level of nesting; tests compare a few flat filters of one kind.", "anchors": ["ldaptor/protocols/pureldap.py: LDAPFilterSet.__eq__", "ldaptor/protocols/pureber.py: BERBase.__eq__, __ne__, __hash__, __len__"]}
{"id": "C82", "title": "Equal entries and operations are interchangeable", "statement": "Two entries, or two add, modify or delete operations, that compare equal have the same LDIF and the same hash, and equal modifications of equal entries give equal entries.", "quantifier": "all entries and operations with any attributes, values in text or bytes and any order", "why_tests_cant": "Sets of values have no fixed order, keys and values may be text or bytes, and DNs may be spelled in many ways; tests compare a few copies.", "anchors": ["ldaptor/delta.py: Modification.__eq__, ModifyOp.__eq__, ModifyOp.__hash__, AddOp.__eq__, AddOp.__hash__, DeleteOp.__eq__, DeleteOp.__hash__", "ldaptor/entry.py: BaseLDAPEntry.__eq__, __hash__, toWire"]}
{"id": "C83", "title": "The server for a DN is the one the options or else the configuration name", "statement": "The command line tools connect for a DN to the server that the last --service-location for its nearest ancestor-or-self names, or else the configuration file's section for it, with host or port from the SRV record where not given; copying a configuration changes only what is told; the scope option accepts the documented scopes.", "quantifier": "all lists of options, all configuration files, all DNs, all hash functions", "why_tests_cant": "Precedence between options, file and ancestors has unboundedly many combinations, and dict keys depend on how a DN is spelled.", "anchors": ["ldaptor/usage.py: Options_service_location.opt_service_location, Options_scope.postOptions_scope", "ldaptor/config.py: LDAPConfig.__init__, getServiceLocationOverrides, _loadServiceLocationOverrides, copy", "ldaptor/protocols/ldap/ldapconnector.py: LDAPConnector.pickServer"]}
{"id": "C84", "title": "No connection to a server outlives its client", "statement": "When the client of the simple proxy or of the merging server goes, every connection to a server made for it is closed, after exactly one party has unbound, and nothing more is sent over it.", "quantifier": "all interleavings of any number of connections, requests, responses and losses", "why_tests_cant": "The order in which clients and servers come and go has unboundedly many interleavings.", "anchors": ["ldaptor/protocols/ldap/proxy.py: Proxy.connectionLost, _cbConnectionMade", "ldaptor/protocols/ldap/merger.py: MergedLDAPServer.connectionLost, _cbConnectionMade"]}
{"id": "C85", "title": "Fetching the schema gives the schema that the server sent", "statement": "fetchschema.fetch asks the given entry for its subschemaSubentry, asks that entry for its attributeTypes and objectClasses, and gives exactly the descriptions that were sent, each once. When a search fails or does not find exactly one entry, or there is not exactly one subschemaSubentry, it fails, and never gives a result before both searches are over.", "quantifier": "all base DNs, all lists of responses to both searches, all iteration orders of sets", "why_tests_cant": "The responses are any list of entries and references with any attributes; a description can be lost or read twice only for particular combinations.", "anchors": ["ldaptor/protocols/ldap/fetchschema.py: fetch, _fetchCb", "ldaptor/schema.py: AttributeTypeDescription, ObjectClassDescription"]}
{"id": "C86", "title": "The naming context is an announced one that holds the entry", "statement": "LDAPEntry.namingContext gives a naming context that the server announces and that contains the entry's DN; when there is none it says so.", "quantifier": "all entries, all responses, all iteration orders of sets", "why_tests_cant": "Containment is over all DNs, and the order of a set changes from run to run.", "anchors": ["ldaptor/protocols/ldap/ldapsyntax.py: LDAPEntry.namingContext, _cbNamingContext_Entries"]}
{"id": "C87", "title": "The base DN is the configured one", "statement": "getBaseDN gives the base the configuration was made with, else the one in the configuration file, else it reports that there is none; getIdentityBaseDN likewise, and falls back to the base DN.", "quantifier": "all configurations, all configuration files, all values", "why_tests_cant": "The sources of the value combine, and the text in a file is subject to interpolation.", "anchors": ["ldaptor/config.py: LDAPConfig.getBaseDN, getIdentityBaseDN"]}
{"id": "C88", "title": "Generated passwords are the lines of the generator", "statement": "generate(reactor, n) fires its Deferred once, with exactly the n non-empty lines that the process wrote, or with a failure when there are not n of them, nothing was written, or anything came on the error output.", "quantifier": "all counts, all outputs in all pieces and orders", "why_tests_cant": "The output arrives in arbitrary pieces, and the repository has no test of this module.", "anchors": ["ldaptor/generate_password.py: ReadPassword, generate"]}
{"id": "C89", "title": "Accounts are exported as lines of seven fields", "statement": "ldap2passwd prints for each account found one line of the seven fields of passwd(5), each field the value of the attribute it stands for.", "quantifier": "all entries, all values", "why_tests_cant": "Values may contain the separators, and attributes may be missing or have several values.", "anchors": ["ldaptor/_scripts/ldap2passwd.py: _cbSearch"]}
{"id": "C90", "title": "Networks have the addresses their mask gives", "statement": "An address is in a network exactly if it differs from the address of the network only in the bits outside the mask, and the records of a network can be written for every network.", "quantifier": "all addresses, networks and masks", "why_tests_cant": "There are 2^32 addresses for each of 33 masks, and the tools have no tests.", "anchors": ["ldaptor/_scripts/ldap2dnszones.py: Net, formatPTR", "ldaptor/_scripts/ldap2maradns.py: Net"]}
{"id": "C91", "title": "setPassword changes the Samba hashes only after the password, and reports what failed", "statement": "setPassword first sends the password modify request. Only when the server has granted it are the hashes of a Samba account set, with one modification; other accounts get none. Success is reported only when the server has granted everything that was sent, a failure names the operation that failed, and it always comes to an end when the server answers.", "quantifier": "all entries, all sequences of answers and failures", "why_tests_cant": "Every request may be refused, be answered by something else, or fail, and the object classes may have to be asked for in between; the tests use scripted answers.", "anchors": ["ldaptor/protocols/ldap/ldapsyntax.py: setPassword, _setPasswordAll, setPasswordMaybe_Samba, setPassword_Samba"]}
{"id": "C92", "title": "LanMan hashes are made only when configured", "statement": "Unless the last setting of use-lmhash in section samba of the configuration files turns it on, no LanMan hash of a password is sent: the attribute is set to the locked value. Different passwords have different NT hashes as far as the hash function allows.", "quantifier": "all configuration files, passwords, entries and answers", "why_tests_cant": "Settings may be spread over any number of files and sections.", "anchors": ["ldaptor/config.py: loadConfig, useLMhash", "ldaptor/samba/smbpassword.py: nthash, lmhash"]}
{"id": "C93", "title": "A proxy starts TLS once, after granting it", "statement": "ProxyBase starts TLS with its client at most once, only when it has options for it, and right after the success response to a StartTLS request. Every StartTLS request is answered at once: with success, then operationsError once TLS has started, and with unavailable without options. Requests handled after that came over TLS.", "quantifier": "all sequences of requests, responses and connection events, all hooks", "why_tests_cant": "StartTLS may come before, while or after the server is connected, and any number of times; tests send it once or twice.", "anchors": ["ldaptor/protocols/ldap/proxybase.py: handle_LDAPExtendedRequest, handleStartTLSRequest", "ldaptor/protocols/ldap/ldapserver.py: BaseLDAPServer.dataReceived"]}
{"id": "C94", "title": "A proxy that cannot reach its server says so", "statement": "When the connection to the server, or TLS with it, fails, ProxyBase answers every bind request that has come with unavailable, in order, and disconnects the client; it disconnects the client in no other case, and only once.", "quantifier": "all sequences of requests and events before the failure", "why_tests_cant": "Any number of requests may be waiting when the connection fails; tests have one or two.", "anchors": ["ldaptor/protocols/ldap/proxybase.py: _failedToConnectToProxiedServer, _connectedToProxiedServer, _establishedTLS"]}
{"id": "C95", "title": "Samba identifiers follow the numbers", "statement": "An entry with autofillers keeps the Samba identifiers (rid, primaryGroupID, sambaSID, sambaPrimaryGroupSID) equal to those of its uidNumber and gidNumber, locally and in what a commit will send, through all edits, starts of fillers, and numbers found in the directory; a filler that starts checks the object class and gives the entry its defaults, overwriting nothing.", "quantifier": "all sequences of assignments, deletions, method calls, filler starts and answers, whether they raise or not; all domain SIDs, values and lists of fillers", "why_tests_cant": "Each filler is tested alone on a few assignments; the interplay of several fillers, errors in the middle of a notification, and long sequences are not.", "anchors": ["ldaptor/protocols/ldap/ldapsyntax.py: LDAPEntryWithAutoFill, JournaledLDAPAttributeSet", "ldaptor/protocols/ldap/autofill/posixAccount.py", "ldaptor/protocols/ldap/autofill/sambaAccount.py", "ldaptor/protocols/ldap/autofill/sambaSamAccount.py"]}
{"id": "C96", "title": "Requests that overlap do not get mixed up", "statement": "In front of a directory whose Deferreds fire later and in any order, the server keeps requests apart: each request that expects an answer gets one result, of its kind and under its id, after the entries of its search; the directory is asked only for what a request says, on the entry found for that request; a result says what the directory said about this request; the user is that of the last bind; and nothing is done for a client that is gone or a request that was abandoned.", "quantifier": "all sequences of messages, connection events, firings of the directory's Deferreds in any order with any outcome, and entries called back", "why_tests_cant": "The tests use the in-memory directory, whose Deferreds have fired when they are given: no two requests are ever in progress at once.", "anchors": ["ldaptor/protocols/ldap/ldapserver.py: BaseLDAPServer.handle, LDAPServer"]}
{"id": "C97", "title": "Client and server understand each other", "statement": "With a client and a server of this library at the two ends of a connection, the server takes the client's requests in order, each as its user meant it and under its own id, and the client hears the server's responses in order; what the client gives to its user for a request is an entry or the one result that the server wrote for that very request, and it says what the directory said about it; and once everything has arrived and the directory has answered, every request has completed.", "quantifier": "all behaviours of the client's user, segmentations and delays of the byte streams in both directions, answers of the directory in any order, and losses of the connection", "why_tests_cant": "The tests drive each end by hand against recorded messages, never both together over a stream cut at arbitrary places with requests in progress at once.", "anchors": ["ldaptor/protocols/ldap/ldapclient.py: LDAPClient", "ldaptor/protocols/ldap/ldapserver.py: BaseLDAPServer.dataReceived, handle, LDAPServer"]}
{"id": "C98", "title": "Patching with the difference of two LDIF files gives the second", "statement": "ldifdiff, given two LDIF files of the same root, writes a patch; ldifpatch, given the first file and that patch, writes a file that is loaded as a directory with exactly the entries of the second file, each saying the same; both end with status 0.", "quantifier": "all pairs of LDIF files with entries in order, any number of entries, attributes and values, any contents", "why_tests_cant": "The tests of the scripts compare a handful of fixed inputs with fixed outputs, and never feed the output of one script to the other.", "anchors": ["ldaptor/_scripts/ldifdiff.py: main, output", "ldaptor/_scripts/ldifpatch.py: main, output", "ldaptor/inmemory.py: fromLDIFFile", "ldaptor/protocols/ldap/ldifdelta.py: fromLDIFFile", "ldaptor/entryhelpers.py: DiffTreeMixin.diffTree"]}
{"id": "C99", "title": "The name server backend answers every line, in order", "statement": "ldap2pdns writes the answers in the order of the lines that it reads, whatever order the searches end in: each line has one answer, which is the greeting, a refusal, the records that its own search found, or FAIL with the reason; once every search has ended and no connection is awaited every line has its answer; and the process ends exactly when the input has ended and all is answered, with nothing written after that.", "quantifier": "all input lines of any contents, all connection outcomes and losses, searches that end at once or later in any order with any result", "why_tests_cant": "There is no test of the script; the order of answers depends on how the ends of searches interleave with lines and connections.", "anchors": ["ldaptor/_scripts/ldap2pdns.py: PdnsPipeProtocol"]}
{"id": "C100", "title": "The name server backend searches for what it was asked", "statement": "Every line is read in exactly one way. Every search of ldap2pdns belongs to one question that was asked after the greeting, asks for the attribute that the answer needs, and is for exactly the host or the address in the question; a question is searched for at most once, and its records are the values found.", "quantifier": "all lines of any contents, all domains, all orders of events", "why_tests_cant": "There is no test of the script; names come from the network and are put into a filter, a line protocol and a record without quoting.", "anchors": ["ldaptor/_scripts/ldap2pdns.py: PdnsPipeProtocol.question_A, question_PTR, question_ANY, do_main_Q, lineReceived"]}
{"id": "C101", "title": "The DHCP configuration has every address once, under its network and in its group", "statement": "When ldap2dhcpconf raises nothing, what it prints is a configuration of what the entries say: the shared networks in the order of their names, then the others; under each network exactly the addresses of hosts for which it is the first network that has them, each once, those of a group together in one block with the boot file of the first group that lists the host, the rest after them; every address without a network, and every host that a second group lists, is reported and nothing else is.", "quantifier": "all entries found for networks, hosts and groups, all orders in which sets are iterated", "why_tests_cant": "There is no test of the script; the output depends on the order of sets of objects, and each address goes through three sets from which it is taken.", "anchors": ["ldaptor/_scripts/ldap2dhcpconf.py: _cbGetNets, _cbGetHosts, _cbGetGroups, haveGroups, Net, SharedNet, Group, Host, HostIPAddress, only, my_aton, my_ntoa"]}
{"id": "C102", "title": "The password tool sets each password where it belongs and shows only what it made", "statement": "At any time in a run of the passwd script, the events about each DN, in order, are one history of that DN: it is asked for a password, gets one or none, the one typed or generated for it is set for it and for no other, at most once and only after the bind was granted, and the result is reported. A password is printed exactly when it was generated and its change was granted, with its own DN. The connection is closed and the reactor stopped once, at the end, exactly when the bind was refused or all is done for every DN. The exit status is 1 exactly when the bind or a change was refused. Without DNs on the command line only the password of the binding DN is changed.", "quantifier": "all bind names and passwords, all lists of DNs, typed or generated passwords, all sequences of inputs: results of the bind, of prompts, of generators and of changes, in any order, at once or later", "why_tests_cant": "The results for several DNs can arrive in any order and each can fail at any stage; the number of interleavings grows without bound with the number of DNs.", "anchors": ["ldaptor/_scripts/passwd.py:13-76", "ldaptor/_scripts/passwd.py:102-105"]}
{"id": "C103", "title": "The naming contexts tool prints what each server says and ends with the last of them", "statement": "However the answers of several servers mix, what the namingcontexts script shows of each server is exactly what that server alone would have caused: a connection, a bind, a search once the bind is granted, one line with its name for each naming context of each entry in order, and its end or failure. The reactor is stopped once, at the end, exactly when the Deferred of every server has fired, and the exit status is 1 exactly when a failure was printed. Without servers only the usage is printed.", "quantifier": "all lists of servers, all interleavings of what happens at each, any number of entries and contexts", "why_tests_cant": "The interleavings of the answers of n servers are unbounded in number, and a server that never lets its Deferred fire shows only in runs that do not end.", "anchors": ["ldaptor/_scripts/namingcontexts.py: Search, SearchFactory, errback, main, console_script"]}
{"id": "C104", "title": "The zone file exporter replaces all files or none", "statement": "When a search of ldap2dnszones fails, or an entry of a network or host lacks a value it needs, no file changes and the exit status is 1. Otherwise the forward file and the file of each reverse zone that was written are replaced, and no other file changes; the forward file has the records of every network and of every address under the first network that has it, and each reverse zone those of its networks and of the addresses whose network has it as its last zone; addresses without a network or a zone are reported.", "quantifier": "all entries found, all reverse zones, all outcomes of the searches, all contents of the directory", "why_tests_cant": "A failure can come at any entry; that no file has then changed, and that no run with a network ever writes a record, are statements about all inputs.", "anchors": ["ldaptor/_scripts/ldap2dnszones.py: HostIPAddress, Host, Net, only, getNets, getHosts, filesOk, filesAbort, main"]}
{"id": "C105", "title": "The tool that finds servers prints the servers of each answer under the DN that was asked for", "statement": "find_server asks, for each DN on the command line and in order, for the service _ldap._tcp of the domain that the last dc components of the DN spell. For each DN it prints, in order, one line for each server record in any section of the answer and nothing for other records, or the error; it stops exactly when all questions are answered, and exits with 1 just when one of them failed. Refuted: a DN that ends in no domain is asked for as the domain None, and one DN that cannot be read keeps the answers of all others from being printed.", "quantifier": "all command lines, all answers and failures of the resolver, all orders in which they come", "why_tests_cant": "Answers come in any order and with any records; that the lines of one DN do not depend on the others is a statement about all interleavings.", "anchors": ["ldaptor/_scripts/find_server.py: printAnswer, errback, main, console_script"]}
{"id": "C106", "title": "The tool that finds a free number prints one that it was told is free", "statement": "A number that getfreenumber prints was searched for and no entry had it, and it is 1000 or the number before it was searched for and some entry had that, even if the directory changes between the searches. Searches and replies come in turn; once a number was not found, at most nine more searches are made; the tool prints a number or a failure, stops once, and exits with 1 just when there is no base DN or something failed. Refuted: that it is the least free number, and that the tool ends at all while every number searched for is found.", "quantifier": "all results of the connection and of each search, in a directory that may change at any time", "why_tests_cant": "The search halves an interval whose ends were seen at different times; that its ends stay apart and that nine steps suffice holds for all replies.", "anchors": ["ldaptor/_scripts/getfreenumber.py: main, error", "ldaptor/numberalloc.py: freeNumberGuesser, ldapGuesser, getFreeNumber"]}
{"id": "C107", "title": "The tool that renames an entry does so once, after a bind with the password it was given", "statement": "rename sends one move request, for the entry and the new name given, and only after a bind succeeded; the bind is anonymous without a bind DN, and otherwise has the bind DN with the line read from the file descriptor, or with what was typed at the prompt, which is shown only if there was no descriptor. If the password or a name cannot be read nothing is sent. The tool stops once, and exits with 0 just when the move succeeded. Refuted: that a password on descriptor 0 is used.", "quantifier": "all names, bind DNs and descriptors, all lines read and typed, all outcomes of the connection, the bind and the move", "why_tests_cant": "Each of the steps can fail; that no course of events sends a move without a bind, or ends with the wrong status, is a statement about all of them.", "anchors": ["ldaptor/_scripts/rename.py: move, error, main, console_script"]}
