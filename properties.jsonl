{"id": "C01", "title": "The caller's document is never modified", "statement": "Calling ramrod.update, ramrod.stix.update, ramrod.cybox.update, or an updater's update() or clean() on an element or element tree leaves every node that existed before the call exactly as it was (tag, attributes, text, tail, children, position), whether the call returns or raises any exception, and whether or not force is set.", "quantifier": "all input documents (any depth and width, including an element that is not the root of its tree), all from_/to_/options/force arguments, all outcomes including exceptions raised in the middle of an update", "why_tests_cant": "an in-place edit could be reached only through one particular combination of node kinds, nesting and failure point; tests compare a few inputs", "anchors": ["ramrod/base.py:BaseUpdater.update", "ramrod/base.py:BaseUpdater.clean", "ramrod/utils.py:get_etree_root", "ramrod/stix/__init__.py:update", "ramrod/cybox/__init__.py:update"]}
{"id": "C02", "title": "The document root alone selects the language", "statement": "ramrod.update on a document whose root has local name STIX_Package behaves exactly like ramrod.stix.update, with local name Observables exactly like ramrod.cybox.update (same result or same exception), and with any other local name raises UpdateError without disallowed or duplicate nodes, whatever the arguments.", "quantifier": "all documents, all arguments", "why_tests_cant": "must hold for every root name and every argument combination", "anchors": ["ramrod/__init__.py:update"]}
{"id": "C03", "title": "Version arguments are validated before anything happens", "statement": "stix.update/cybox.update raise UnknownVersionError when no starting version is given and the document has none; InvalidVersionError when the starting or target version is not one of the known versions or the start is not strictly older than the target; in these cases nothing else is evaluated. Otherwise the update steps run. An omitted target means the newest known version.", "quantifier": "all strings as from_ and to_ (including empty and absent), all documents", "why_tests_cant": "the set of argument strings is infinite; only a few are tested", "anchors": ["ramrod/utils.py:validate_version", "ramrod/utils.py:validate_versions", "ramrod/stix/__init__.py:update", "ramrod/cybox/__init__.py:update"]}
{"id": "C04", "title": "An update applies exactly the steps between the two versions, in order", "statement": "A call from version a to version b applies the single-step updates registered for a, next(a), ..., previous(b), each exactly once, in version order, each on the document returned by the previous one, and stops at the first one that raises.", "quantifier": "all pairs of known versions a < b, all documents", "why_tests_cant": "the sequence depends on run-time slicing of a version table", "anchors": ["ramrod/stix/__init__.py:update", "ramrod/cybox/__init__.py:update"]}
{"id": "C05", "title": "Updating in one call equals updating in two", "statement": "update(doc, a, c) gives the same document, the same removed nodes and the same remapped ids as update(doc, a, b) followed by update(result, b, c), and it raises exactly when the first or the second of the two calls raises.", "quantifier": "all documents, all versions a < b < c, all options, both values of force", "why_tests_cant": "a composition law over all documents and all version triples", "anchors": ["ramrod/stix/__init__.py:update", "ramrod/cybox/__init__.py:update"]}
{"id": "C06", "title": "A successful update yields a document that declares the target version", "statement": "When stix.update or cybox.update returns for a document whose root is the language's top-level element (STIX_Package in the STIX namespace, Observables in the CybOX namespace), the root of the returned document declares the requested target version (version attribute for STIX, cybox_*_version attributes for CybOX).", "quantifier": "all documents, all valid version pairs, all options, both values of force", "why_tests_cant": "every path through up to five updaters must end with the right stamp", "anchors": ["ramrod/stix/stix_1_0.py:_update_versions", "ramrod/stix/stix_1_0_1.py:_update_versions", "ramrod/stix/stix_1_1.py:_update_versions", "ramrod/stix/stix_1_1_1.py:_update_versions", "ramrod/stix/stix_1_2.py:_update", "ramrod/cybox/cybox_2_0.py:_update_versions", "ramrod/cybox/cybox_2_0_1.py:_update_versions"]}
{"id": "C07", "title": "Component versions are brought in line and no other version attribute changes", "statement": "A STIX step up to 1.2 sets the version of every STIX_Package and of every versioned component (the 21 names in their component, stix and stixCommon namespaces that carry a version attribute) to the step's value, indicators getting the indicator series, and changes no other node's version attribute.", "quantifier": "all documents, every nesting of components", "why_tests_cant": "component elements can occur anywhere and any number of times", "anchors": ["ramrod/stix/base.py:XPATH_VERSIONED_NODES", "ramrod/stix/stix_1_1_1.py:_update_versions"]}
{"id": "C08", "title": "A version mismatch is reported", "statement": "With version checking on and force off, a STIX step raises InvalidVersionError when the first STIX_Package in document order declares a well-formed version different from the step's version and UnknownVersionError when it declares none; a CybOX step does so for every Observables element. Versions that are numerically equal ('1.1' and '1.1.0') are accepted. With check_versions off no version is looked at.", "quantifier": "all documents, all version strings", "why_tests_cant": "quantifies over all version strings and all numbers and positions of root elements", "anchors": ["ramrod/stix/base.py:_check_version", "ramrod/cybox/base.py:_check_version", "ramrod/utils.py:is_version_equal"]}
{"id": "C09", "title": "Without force, an update succeeds only on fully translatable documents and reports exactly the offending nodes", "statement": "For the STIX 1.0, STIX 1.0.1 and CybOX 2.0.1 steps: if versions are in order, a non-forced update raises UpdateError if and only if some node is untranslatable or (for the latter two) some id is shared; the error lists exactly the untranslatable nodes and exactly the shared ids with their nodes. Other steps never raise UpdateError.", "quantifier": "all documents", "why_tests_cant": "an 'exactly those' claim over all documents", "anchors": ["ramrod/stix/stix_1_0.py:check_update", "ramrod/stix/stix_1_0_1.py:check_update", "ramrod/cybox/cybox_2_0_1.py:check_update"]}
{"id": "C10", "title": "check_update predicts update", "statement": "If check_update(doc) raises, the non-forced update(doc) raises the same kind of error; if it returns, the non-forced update never raises UpdateError, InvalidVersionError or UnknownVersionError for that step.", "quantifier": "all updaters, all documents and options", "why_tests_cant": "agreement of two entry points on all documents", "anchors": ["ramrod/base.py:BaseUpdater.update", "ramrod/stix/stix_1_0.py:check_update", "ramrod/stix/stix_1_0_1.py:check_update", "ramrod/stix/stix_1_1.py:check_update", "ramrod/stix/stix_1_1_1.py:check_update", "ramrod/stix/stix_1_2.py:check_update", "ramrod/cybox/cybox_2_0.py:check_update", "ramrod/cybox/cybox_2_0_1.py:check_update"]}
{"id": "C11", "title": "force changes nothing when nothing needs forcing", "statement": "If the non-forced update returns, the forced update returns the same document, the same removed collection and the same remapped ids.", "quantifier": "all updaters, all documents and options", "why_tests_cant": "equality of two runs for all documents", "anchors": ["ramrod/base.py:BaseUpdater.update"]}
{"id": "C12", "title": "A forced update never fails for the documented reasons", "statement": "With force=True a single-step update raises none of UpdateError, InvalidVersionError, UnknownVersionError; and it is the composition of clean() and the step.", "quantifier": "all updaters, all documents and options", "why_tests_cant": "absence of an exception for all documents", "anchors": ["ramrod/base.py:BaseUpdater._force_update", "ramrod/base.py:BaseUpdater._clean"]}
{"id": "C13", "title": "Cleaning leaves nothing to complain about", "statement": "After clean() (and so in the document a forced update continues with) no untranslatable node and no shared id is left, provided the id function yields fresh ids.", "quantifier": "all documents", "why_tests_cant": "removing one node may make another one untranslatable; this needs an argument over all nestings", "anchors": ["ramrod/base.py:BaseUpdater._clean", "ramrod/stix/stix_1_0.py:_clean_disallowed", "ramrod/stix/stix_1_0_1.py:_clean_disallowed", "ramrod/stix/stix_1_0_1.py:_clean_duplicates", "ramrod/cybox/cybox_2_0_1.py:_clean_disallowed", "ramrod/cybox/cybox_2_0_1.py:_clean_duplicates"]}
{"id": "C14", "title": "Cleaning removes only what it reports and reports all it removes", "statement": "clean() changes the document only by deleting the untranslatable nodes with their subtrees and by replacing shared ids; everything else is unchanged; the removed collection holds, in order, one copy of each deleted node as it was when it was deleted.", "quantifier": "all documents, all nestings of untranslatable nodes", "why_tests_cant": "frame property over all documents", "anchors": ["ramrod/stix/stix_1_0.py:_clean_disallowed", "ramrod/stix/stix_1_0_1.py:_clean_disallowed", "ramrod/cybox/cybox_2_0_1.py:_clean_disallowed", "ramrod/base.py:BaseUpdater._clean"]}
{"id": "C15", "title": "Only shared ids are remapped, each holder gets a new id of its own", "statement": "Remapping changes the id of every counted node whose id is shared with another counted node, calls the id function exactly once for each of them, leaves every other attribute of every node unchanged (idref included), and the result keys each old id to the nodes that held it. With the default function the new id is the old one followed by '-cleaned-' and a fresh uuid.", "quantifier": "all documents, all id functions", "why_tests_cant": "quantifies over all multisets of ids", "anchors": ["ramrod/base.py:BaseUpdater._get_duplicates", "ramrod/stix/stix_1_0_1.py:_clean_duplicates", "ramrod/cybox/cybox_2_0_1.py:_clean_duplicates", "ramrod/utils.py:new_id"]}
{"id": "C16", "title": "Which nodes share an id", "statement": "Two nodes count as sharing an id exactly when both are element descendants of the root, carry equal id attributes, and have names in one of the namespaces known for the version; the reported groups partition exactly the nodes whose id occurs at least twice among those.", "quantifier": "all documents", "why_tests_cant": "an exact characterisation over all documents", "anchors": ["ramrod/base.py:BaseUpdater._get_duplicates"]}
{"id": "C17", "title": "Controlled vocabulary values are upgraded exactly where they should be", "statement": "A step rewrites exactly the descendants whose xsi:type names an outdated type of the default vocabulary namespace: the type name is replaced keeping the prefix, vocab_reference and vocab_name are rewritten if present and never added, a misspelt term is corrected, and no other text, attribute or node changes.", "quantifier": "all documents, prefixes and namespace declarations", "why_tests_cant": "prefix resolution, nesting and term tables vary over all documents", "anchors": ["ramrod/base.py:Vocab.find", "ramrod/base.py:Vocab.update", "ramrod/base.py:BaseUpdater._update_vocabs"]}
{"id": "C18", "title": "A vocabulary reference never breaks an update", "statement": "Updating a value of an outdated default vocabulary that carries a vocab_reference attribute succeeds and stores the new reference string.", "quantifier": "all documents, all vocabularies of all steps", "why_tests_cant": "one wrong class attribute in one of ten vocabularies is enough", "anchors": ["ramrod/stix/stix_1_0.py:PlanningAndOperationalSupportVocab", "ramrod/cybox/cybox_2_0_1.py:ObjectRelationshipVocab", "ramrod/base.py:Vocab.update"]}
{"id": "C19", "title": "update_vocabularies=False leaves vocabulary values alone", "statement": "With update_vocabularies off, no xsi:type, vocab_name, vocab_reference attribute is changed by a step, other effects being the same.", "quantifier": "all documents, all steps", "why_tests_cant": "must hold for all documents", "anchors": ["ramrod/options.py:UpdateOptions", "ramrod/stix/stix_1_0.py:_update", "ramrod/stix/stix_1_0_1.py:_update", "ramrod/stix/stix_1_1.py:_update", "ramrod/stix/stix_1_1_1.py:_update", "ramrod/stix/stix_1_2.py:_update", "ramrod/cybox/cybox_2_0.py:_update", "ramrod/cybox/cybox_2_0_1.py:_update"]}
{"id": "C20", "title": "Optional elements are removed exactly when they are empty", "statement": "With remove_optionals on, the steps from CybOX 2.0.1, STIX 1.0.1 and STIX 1.1 remove exactly the listed elements that have no attribute and no non-blank text on themselves or any descendant; with it off they remove none; nothing else is removed.", "quantifier": "all documents", "why_tests_cant": "exact characterisation over all documents", "anchors": ["ramrod/base.py:OptionalElements", "ramrod/cybox/cybox_2_0_1.py:_update_optionals", "ramrod/stix/stix_1_0_1.py:_update_optionals", "ramrod/stix/stix_1_1.py:_update_optionals"]}
{"id": "C21", "title": "Removing optional elements loses no content", "statement": "No character data other than white space is lost by the removal of empty optional elements.", "quantifier": "all documents", "why_tests_cant": "depends on where text nodes lie relative to comments and child elements", "anchors": ["ramrod/base.py:OptionalElements._is_empty", "ramrod/utils.py:remove_xml_elements"]}
{"id": "C22", "title": "schemaLocation is rewritten entry by entry", "statement": "If the root has an xsi:schemaLocation, the new value lists, in the same order, every pair whose namespace is not dropped for this step, with the namespace replaced by its successor and the location replaced by that of the new version's schema when there is one (every published schema except, in the step from STIX 1.0.1, the CAPEC 2.7 extension, whose namespace is misspelt in the code's table), all other pairs unchanged; a missing attribute stays missing; no other node's attributes are touched.", "quantifier": "all attribute values (any white space, odd numbers of tokens, repeated namespaces)", "why_tests_cant": "string processing over all strings", "anchors": ["ramrod/base.py:BaseUpdater._update_schemalocs", "ramrod/utils.py:get_schemaloc_pairs"]}
{"id": "C23", "title": "STIX 1.2 to 1.2.1 moves every name to the new namespaces", "statement": "After the STIX 1.2 step every element whose name was in one of the 26 old namespaces is in the corresponding new namespace with the same local name; all other element names, attribute values and the tree structure are unchanged, and every prefix declared on a renamed element denotes the successor namespace.", "quantifier": "all documents", "why_tests_cant": "recursive rewriting of trees of any shape", "anchors": ["ramrod/stix/stix_1_2.py:STIX_1_2_Updater", "ramrod/base.py:BaseUpdater._update_namespaces"]}
{"id": "C24", "title": "A namespace update loses no text", "statement": "Renaming namespaces keeps all character data: text before, between and after child nodes.", "quantifier": "all documents", "why_tests_cant": "mixed content and tails occur in arbitrary places", "anchors": ["ramrod/base.py:BaseUpdater._update_nsmap", "ramrod/utils.py:get_node_text"]}
{"id": "C25", "title": "CybOX 2.0 lists keep their elements", "statement": "After the CybOX 2.0 step, splitting an object property value at '##comma##' gives exactly the items obtained by splitting the old value at ',' and decoding '&comma;' in each item; values outside object properties are untouched.", "quantifier": "all texts of object properties, all documents", "why_tests_cant": "a codec property over all strings", "anchors": ["ramrod/cybox/cybox_2_0.py:_update_lists"]}
{"id": "C26", "title": "Translated fields keep their value", "statement": "Each translation rewrites exactly the fields it names: renamed fields keep attributes, text and children; DNT, Vary and Refresh keep the text and attributes of their value (datatype of Refresh becoming string when present); exploit targets, contributors and related campaigns are wrapped, with the full original content inside; statement, confidence and sighting sources keep their text as the identity's name; a mailslot handle list with one handle becomes that handle.", "quantifier": "all documents", "why_tests_cant": "structure-changing rewriting over all subtrees", "anchors": ["ramrod/cybox/cybox_2_0_1.py:TransHTTPSessionDNT", "ramrod/cybox/cybox_2_0_1.py:TransHTTPSessionVary", "ramrod/cybox/cybox_2_0_1.py:TransHTTPSessionRefresh", "ramrod/cybox/cybox_2_0_1.py:TransWinMailslotHandle", "ramrod/base.py:RenamedField", "ramrod/stix/stix_1_0_1.py:TransTTPExploitTargets", "ramrod/stix/stix_1_0_1.py:TransCommonContributors", "ramrod/stix/stix_1_1.py:TransCommonSource", "ramrod/stix/stix_1_1.py:TransSightingsSource", "ramrod/stix/stix_1_1.py:TransIndicatorRelatedCampaign", "ramrod/base.py:TranslatableField"]}
{"id": "C27", "title": "Each step is exactly its documented list of changes", "statement": "The document returned by a successful non-forced step is the input document with the documented rewritings applied in order (namespaces, schema locations, versions, list delimiters, translations, vocabularies, optional elements) and is otherwise identical.", "quantifier": "all documents and options, all seven steps", "why_tests_cant": "full functional correctness, including the frame", "anchors": ["ramrod/stix/stix_1_0.py:_update", "ramrod/stix/stix_1_0_1.py:_update", "ramrod/stix/stix_1_1.py:_update", "ramrod/stix/stix_1_1_1.py:_update", "ramrod/stix/stix_1_2.py:_update", "ramrod/cybox/cybox_2_0.py:_update", "ramrod/cybox/cybox_2_0_1.py:_update"]}
{"id": "C28", "title": "A well-formed document never crashes a step", "statement": "If every xsi:type has one colon and a prefix declared on the root, vocabulary references avoid the two broken classes, contributors contain only elements, DNT and Vary contain a value (one without xsi:type when the update is forced, since cleaning may remove typed ones), sources contain no raw markup, versions are well-formed and no text with a CDATA section contains \"]]>\", then a step raises nothing outside the documented errors (except that 1.2 cannot be forced); and each of these conditions is needed. A prefix declared only where it is used is not enough.", "quantifier": "all documents", "why_tests_cant": "absence of all undocumented exceptions over all documents", "anchors": ["ramrod/utils.py:get_type_info", "ramrod/utils.py:get_ext_namespace", "ramrod/base.py:TranslatableField._translate_value", "ramrod/stix/stix_1_1.py:TransCommonSource", "ramrod/utils.py:get_node_text"]}
{"id": "C29", "title": "The version a document declares", "statement": "get_version of a STIX document is its version attribute; of a CybOX document it is 'major.minor' or 'major.minor.update' from the non-empty attributes, and UnknownVersionError without major or minor.", "quantifier": "all documents", "why_tests_cant": "all attribute combinations", "anchors": ["ramrod/cybox/base.py:get_version", "ramrod/stix/base.py:get_version"]}
{"id": "C30", "title": "Version comparison is numeric", "statement": "Version equality is an equivalence on well-formed versions that identifies exactly versions with equal numbers (missing patch level counting as 0) and equal pre-release tags; the order is a strict total order on them; every other string raises ValueError.", "quantifier": "all strings", "why_tests_cant": "all strings", "anchors": ["ramrod/utils.py:is_version_equal"]}
{"id": "C31", "title": "A step's output is accepted by the next step", "statement": "The document produced by a successful step passes the version check of the next step.", "quantifier": "all documents, all consecutive steps", "why_tests_cant": "relates the selectors of two updaters on all documents", "anchors": ["ramrod/stix/stix_1_0.py:_init_cybox_updater", "ramrod/stix/stix_1_0_1.py:_init_cybox_updater", "ramrod/stix/base.py:_check_version", "ramrod/cybox/base.py:_check_version"]}
{"id": "C32", "title": "The result depends only on document content", "statement": "Two documents with equal content (whatever their node identities, whether given as element, tree or file, and whatever else exists in memory) give equal results: same document content, same removed content, same new ids, or the same exception.", "quantifier": "all pairs of equal documents, all arguments", "why_tests_cant": "a relational property over pairs of runs", "anchors": ["ramrod/utils.py:get_etree_root", "ramrod/__init__.py:update"]}
{"id": "C33", "title": "Result collections have the documented types", "statement": "The removed attribute of a result is a tuple and remapped_ids is a dictionary.", "quantifier": "all calls", "why_tests_cant": "depends on which of several code paths produced the result", "anchors": ["ramrod/results.py:UpdateResults", "ramrod/base.py:_create_update_results", "ramrod/stix/__init__.py:update"]}
{"id": "C34", "title": "update_ns renames all names consistently", "statement": "The namespace script maps the namespace of every element and attribute name by the given mapping, leaves local names, values, text, tails and structure unchanged, and maps the namespaces in every schemaLocation.", "quantifier": "all documents, all mappings", "why_tests_cant": "recursive rewriting for all trees and mappings", "anchors": ["ramrod/scripts/update_ns.py:update_namespaces", "ramrod/scripts/update_ns.py:update_schemalocations"]}
{"id": "C35", "title": "update_ns can be undone", "statement": "Applying the script with (A,B) and then with (B,A) restores all names of a document that uses no namespace of B, for lists of equal length without repetition.", "quantifier": "all documents, all lists", "why_tests_cant": "round trip over all documents and lists", "anchors": ["ramrod/scripts/update_ns.py:update_from_lists"]}
{"id": "C36", "title": "The built-in tables of update_ns agree with the STIX 1.2 updater", "statement": "'-f stix1.2 -t stix1.2.1' maps every old STIX namespace to the same new one as the STIX 1.2 updater.", "quantifier": "all namespaces", "why_tests_cant": "a table property, exhaustive", "anchors": ["ramrod/scripts/update_ns.py:STIX_NS_1_2", "ramrod/stix/stix_1_2.py:UPDATE_NS_MAP"]}
{"id": "C37", "title": "The command line tool's exit status tells whether a document was written", "statement": "The exit status is 0 exactly when the input file exists and the update that the arguments stand for succeeds; then exactly the updated document is written, and the names of the removed nodes and each replaced id with its replacements are printed. Otherwise the status is 1 and neither a document nor a report is written. Versions are checked unless --from is given.", "quantifier": "all inputs and argument combinations", "why_tests_cant": "all inputs", "anchors": ["ramrod/scripts/ramrod_update.py:main", "ramrod/scripts/ramrod_update.py:_get_options", "ramrod/scripts/ramrod_update.py:_write_removed", "ramrod/scripts/ramrod_update.py:_write_remapped_ids"]}
{"id": "C38", "title": "Names split and rebuild", "statement": "Splitting '{ns}local' gives back ns and local for every namespace and every local name without '}', and a name without leading brace is returned unchanged.", "quantifier": "all strings", "why_tests_cant": "all strings", "anchors": ["ramrod/scripts/update_ns.py:split_braced_name"]}
{"id": "C39", "title": "Every step can be forced", "statement": "With force=True every registered update step either performs the update or fails for a reason other than one of the three documented update errors and other than NotImplementedError: forcing is available for every step.", "quantifier": "all registered updaters, all documents, all option values", "why_tests_cant": "all documents that fail their checks, for every step", "anchors": ["ramrod/base.py:BaseUpdater.update", "ramrod/base.py:BaseUpdater._force_update", "ramrod/base.py:BaseUpdater.clean", "ramrod/stix/stix_1_2.py:STIX_1_2_Updater"]}
{"id": "C40", "title": "A step neither loses, copies nor reorders content", "statement": "Apart from the fields a step is documented to replace (DNT, Vary, Refresh, mailslot handles, contributors, sources) and the empty optional elements it removes, every node of the document it works on is in the new document exactly once, in document order, below the same ancestors (possibly with new wrapper elements in between). The same holds of a whole update over several steps, for the fields that one of its steps replaces: without force, or if it reports no removed nodes, every other node is in the new document; with force every other node is in the new document or in one of the removed nodes it reports, and no node is in both.", "quantifier": "all documents, all steps and all updates over several steps, all options, force on or off", "why_tests_cant": "every nesting and order of nodes, comments and processing instructions included", "anchors": ["ramrod/utils.py:replace_xml_element", "ramrod/utils.py:remove_xml_elements", "ramrod/base.py:TranslatableField.translate", "ramrod/base.py:OptionalElements", "ramrod/base.py:BaseUpdater._update_nsmap"]}
{"id": "C41", "title": "No attribute outside the ones a step works on changes", "statement": "On every node a step carries over, every attribute other than xsi:schemaLocation, version, the cybox_*_version attributes and (with update_vocabularies) the vocabulary attributes has the value it had before, and none is added or dropped. The same holds of a whole update over several steps (with force, ids excepted), for the nodes of the new document and for those in the removed nodes it reports.", "quantifier": "all documents, all steps and all updates over several steps, all options, all attribute names", "why_tests_cant": "any attribute on any node of any document", "anchors": ["ramrod/base.py:BaseUpdater.update", "ramrod/cybox/cybox_2_0_1.py:Cybox_2_0_1_Updater", "ramrod/stix/stix_1_0_1.py:STIX_1_0_1_Updater", "ramrod/base.py:BaseUpdater._update_nsmap"]}
{"id": "C42", "title": "Reported replacement ids are really in the result", "statement": "After a successful update, every node listed in the remapped_ids of the result exists and carries an id made by options.new_id_func from the id it is listed under; each comes from its own call, so that an id function that never repeats itself gives pairwise different ids. Every reported removed node can still be read.", "quantifier": "all documents, all version pairs, all options and id functions, force on or off", "why_tests_cant": "later steps could rename, drop or renumber nodes reported by an earlier one; any document and any sequence of steps", "anchors": ["ramrod/stix/stix_1_0_1.py:_clean_duplicates", "ramrod/cybox/cybox_2_0_1.py:_clean_duplicates", "ramrod/utils.py:new_id", "ramrod/results.py:UpdateResults", "ramrod/__init__.py:update"]}
{"id": "C43", "title": "The command line tool explains every documented failure", "statement": "The tool ends by itself with status 1 exactly on UpdateError, UnknownVersionError and InvalidVersionError, after printing the names of the untranslatable nodes in order, the duplicated ids, or the node, the expected and the found version; every node an error refers to can be read by the caller. Any other exception ends in a traceback.", "quantifier": "all input files and argument combinations", "why_tests_cant": "every error of every step on every input", "anchors": ["ramrod/scripts/ramrod_update.py:main", "ramrod/scripts/ramrod_update.py:_print_update_error", "ramrod/scripts/ramrod_update.py:_print_invalid_version_error", "ramrod/errors.py"]}
{"id": "C44", "title": "Ids and references survive an update", "statement": "A successful update without force loses no id and no reference: every attribute that steps do not set (versions, schema locations, vocabulary attributes) and that is not inside one of the few fields a step replaces by new ones is on some element of the new document with the same value, no new reference appears, and references that resolved before the update resolve after it. With force each such value is in the new document, inside a node reported as removed, or is an id reported as replaced (references to a replaced id are not rewritten and may be left without a target).", "quantifier": "all documents, all version pairs, all options, all attribute names and values, force on or off, all three entry points", "why_tests_cant": "any attribute at any depth, through every sequence of steps; a single pass that rebuilds an element could drop it", "anchors": ["ramrod/__init__.py:update", "ramrod/utils.py:copy_xml_element", "ramrod/utils.py:replace_xml_element", "ramrod/base.py:BaseUpdater._update_namespaces", "ramrod/base.py:BaseUpdater._clean_duplicates", "ramrod/base.py:OptionalElements"]}
{"id": "C45", "title": "Text survives an update and none is invented", "statement": "A successful update without force keeps the text of every element without child nodes that is outside the few fields a step replaces: some element of the new document has it. This is for text that is not blank, not one of the eight corrected vocabulary terms and free of commas (which separate list items). With force the text is in the new document or inside a node reported as removed. Every text of the new document is made from a text of the old one by correcting a spelling, changing list separators or parsing the name of a source; the only exception is the name \"None\" given to a source without text. No text between elements is invented, but text that follows a translated field is lost.", "quantifier": "all documents, all version pairs, all options, all strings, force on or off, all three entry points", "why_tests_cant": "any text at any depth, through every sequence of steps; any rebuilt element could drop it", "anchors": ["ramrod/__init__.py:update", "ramrod/utils.py:copy_xml_element", "ramrod/utils.py:replace_xml_element", "ramrod/base.py:Vocab", "ramrod/stix/stix_1_0_1.py", "ramrod/cybox/cybox_2_0_1.py"]}
{"id": "C46", "title": "A result is not updated again by mistake", "statement": "The root of an updated document keeps its local name, so the common entry point sees a document of the same language, and get_version of the result answers the target version. Giving the result to another update without a starting version raises InvalidVersionError and changes nothing, unless the second target is newer than the first; in particular an update done twice fails the second time.", "quantifier": "all documents, all version pairs of both calls, all options, force on or off in both calls, the result as an element or as an element tree", "why_tests_cant": "two calls with independent arguments on any document; depends on every step setting the version of the root", "anchors": ["ramrod/__init__.py:update", "ramrod/stix/__init__.py:update", "ramrod/cybox/__init__.py:update", "ramrod/stix/__init__.py:get_version", "ramrod/cybox/__init__.py:get_version", "ramrod/utils.py:validate_versions"]}
{"id": "C47", "title": "An argument left out is the documented default", "statement": "An update without a starting version, target or options behaves exactly as the same update with the version the document declares, the newest version and the default options: the same outcome, the same results and the same effects. An empty string counts as left out.", "quantifier": "all documents that declare a version, all combinations of arguments left out, force on or off, all three entry points", "why_tests_cant": "equality of two executions for every document and every combination", "anchors": ["ramrod/__init__.py:update", "ramrod/stix/__init__.py:update", "ramrod/cybox/__init__.py:update", "ramrod/options.py:DEFAULT_UPDATE_OPTIONS"]}
{"id": "C48", "title": "A well-formed document never crashes an update", "statement": "An update from any version to any later one, over any number of steps, of a document whose xsi:type values are readable and use prefixes declared on the root, whose HTTP fields have a value, whose contributors hold only elements, whose sources are plain text, whose version attributes are version numbers and in which no text with a CDATA section contains \"]]>\", either succeeds or fails with one of the three documented exceptions; with force the only other exception is NotImplementedError. A successful step keeps the first of these conditions, so an error cannot be introduced by an earlier step.", "quantifier": "all documents meeting the conditions, all starting and target versions, options and oracles, force on or off, all three entry points", "why_tests_cant": "the conditions must be kept by each of the dozens of rewriting passes for every document, and each pass is the input of the next", "anchors": ["ramrod/__init__.py:update", "ramrod/stix/__init__.py:update", "ramrod/cybox/__init__.py:update", "ramrod/base.py:BaseUpdater.update"]}
{"id": "C49", "title": "Standard output is the document alone", "statement": "When the command line tool succeeds, standard output holds exactly the updated document, or nothing when an output file is named; the output file is written exactly on success and holds exactly the updated document; reports and errors go elsewhere.", "quantifier": "all command lines and input files", "why_tests_cant": "depends on every way an update can end and on everything it can report", "anchors": ["ramrod/scripts/ramrod_update.py:main", "ramrod/scripts/ramrod_update.py:_write_xml", "ramrod/scripts/ramrod_update.py:_write_removed", "ramrod/scripts/ramrod_update.py:_print_update_error"]}
{"id": "C50", "title": "An update multiplies no id", "statement": "For every attribute that steps do not set and every value, the updated document has it at most as often as the document before; in particular a document whose ids are unique is updated to one whose ids are unique. Ids made by the id function of a forced update are not counted. This is for documents whose plain text sources contain no markup characters.", "quantifier": "all documents meeting the condition, all starting and target versions, options and oracles, all three entry points; force on or off", "why_tests_cant": "every pass that copies, wraps or moves nodes could duplicate an attribute on some document, over any number of steps", "anchors": ["ramrod/__init__.py:update", "ramrod/utils.py:copy_xml_element", "ramrod/base.py:TranslatableField", "ramrod/stix/stix_1_1.py:TransCommonSource"]}
{"id": "C51", "title": "A prefix and a type keep their meaning", "statement": "At every node a step carries over, each namespace prefix stands for the namespace it stood for before, or for its successor where the step replaces that namespace; so the type named by an xsi:type is the same type (for a value of an outdated vocabulary the new type of that vocabulary), and none is left in a replaced namespace.", "quantifier": "all documents, all steps, nodes and prefixes, all options, force on or off", "why_tests_cant": "prefixes resolve through the chain of ancestors, any of which a pass may rebuild, wrap or take away", "anchors": ["ramrod/base.py:_update_nsmap", "ramrod/base.py:_update_namespaces", "ramrod/utils.py:get_type_info", "ramrod/base.py:TranslatableField", "ramrod/base.py:_update_vocabs"]}
{"id": "C52", "title": "No outdated vocabulary is left", "statement": "After a successful update with vocabularies on, no element names a type that is an old version of one of the vocabularies which the steps in between replace, neither in the namespace of that vocabulary nor in the one it has from STIX 1.2.1 on.", "quantifier": "all documents, all starting and target versions, all other options, force on or off, all three entry points", "why_tests_cant": "a later pass or step could bring back, uncover or copy an outdated type on some document, over any chain of steps and any arrangement of namespace declarations", "anchors": ["ramrod/base.py:Vocab", "ramrod/base.py:_update_vocabs", "ramrod/utils.py:get_typed_nodes", "ramrod/utils.py:get_ext_namespace", "ramrod/__init__.py:update"]}
{"id": "C53", "title": "An option changes only what it is for", "statement": "Switching the version check off never changes a result: whatever an update returns with the check it returns without it, and without it no error is about the version of a document once the starting and target versions are known. The function for new ids has no influence on an update that is not forced or that reports no replaced id.", "quantifier": "all documents, versions, options, id functions and oracles, force on or off, all three entry points", "why_tests_cant": "a relation between runs with different options over all documents and chains of steps", "anchors": ["ramrod/options.py:UpdateOptions", "ramrod/base.py:BaseUpdater.update", "ramrod/base.py:BaseUpdater.check_update", "ramrod/stix/stix_1_0.py:STIX_1_0_Updater.check_update", "ramrod/cybox/cybox_2_0_1.py:Cybox_2_0_1_Updater.check_update"]}
{"id": "C54", "title": "Embedded CybOX content is updated like a CybOX document", "statement": "The children of an element of a STIX 1.0 or 1.0.1 package that are pure CybOX content become, when the package is updated one version, exactly what the children of the root of a CybOX 2.0 or 2.0.1 document with the same content and prefixes become when that document is updated; and if the package can be updated so can the document, once its own check passes.", "quantifier": "all packages, all places in them, all contents, all options, force on or off, any memory", "why_tests_cant": "two different programs are compared on every content at every place in every package", "anchors": ["ramrod/stix/stix_1_0.py:STIX_1_0_Updater._update_cybox", "ramrod/stix/stix_1_0_1.py:STIX_1_0_1_Updater._update_cybox", "ramrod/cybox/cybox_2_0.py:Cybox_2_0_Updater.update", "ramrod/cybox/cybox_2_0_1.py:Cybox_2_0_1_Updater.update"]}
{"id": "C55", "title": "Registering updater classes", "statement": "Registering an updater class for an unknown version raises ValueError and changes nothing. After any history of registrations the class used for a version is the last accepted one registered for it, and each helper class resolves prefixes with the namespace table of the last accepted class that lists it; classes for different versions that share no helpers can be registered in any order and do not affect one another. Importing the packages gives every version that has a successor an updater for that version, and no later registration takes that away.", "quantifier": "all updater classes, all histories of registrations in either package, all orders", "why_tests_cant": "the outcome depends on the whole history of registrations, including those made by other programs, and on which helpers the classes share", "anchors": ["ramrod/stix/__init__.py:register_updater", "ramrod/stix/__init__.py:_wire_nsmaps", "ramrod/cybox/__init__.py:register_updater", "ramrod/cybox/__init__.py:_wire_nsmaps"]}
{"id": "C56", "title": "The order in which duplicated ids are visited does not matter", "statement": "Python does not fix the order in which the dictionary of duplicated ids is iterated. Whatever the order, in every step, clean and update: the same nodes get new ids, the same content is removed, the same updated document comes out and the same error is raised; result and error dictionaries are equal as dictionaries, and only which generated id goes to which of these nodes may differ. With an id function that makes the same id from the same old id nothing differs at all.", "quantifier": "all documents, options, versions and memories, all iteration orders, a different one in each step", "why_tests_cant": "a test run sees the order that one interpreter and hash seed happen to give; there are as many orders as permutations of the duplicated ids", "anchors": ["ramrod/base.py:BaseUpdater._get_duplicates", "ramrod/stix/stix_1_0_1.py:STIX_1_0_1_Updater._get_duplicates", "ramrod/stix/stix_1_0_1.py:STIX_1_0_1_Updater._clean_duplicates", "ramrod/cybox/cybox_2_0_1.py:Cybox_2_0_1_Updater._clean_duplicates", "ramrod/base.py:BaseUpdater.clean", "ramrod/base.py:BaseUpdater.update"]}
{"id": "C57", "title": "The helper classes work for every configuration", "statement": "Someone who writes an updater with the helper classes gets what they describe, whatever the namespaces, types, tables and supported XPath expressions: a renamed field renames exactly the nodes its XPath selects; a translated field replaces exactly the outermost selected nodes by a new element with the given name, the text of the value node and the copied and overridden attributes, and raises IndexError when a selected node has no value; optional elements removes exactly the outermost selected empty elements; a disallowed-fields class finds exactly the selected nodes, in document order, inside each element of the listed types if there are any; a vocabulary class renews exactly the terms of its old types, and fails exactly on unreadable types and on attributes for which it has no text; vocabularies that do not get in each other's way can be listed in any order; a namespace map moves exactly the elements of the replaced namespaces, and fails exactly if the text of a childless one has a CDATA section and contains \"]]>\". All other nodes and all other documents are untouched.", "quantifier": "all helper class configurations, all documents and memories", "why_tests_cant": "tests exercise the configurations that ship; the helper classes are a public extension point with unboundedly many configurations and documents", "anchors": ["ramrod/base.py:Vocab", "ramrod/base.py:TranslatableField", "ramrod/base.py:RenamedField", "ramrod/base.py:DisallowedFields", "ramrod/base.py:OptionalElements", "ramrod/base.py:BaseUpdater._update_namespaces", "ramrod/base.py:BaseUpdater._update_vocabs"]}
{"id": "C58", "title": "Classes for optional attributes remove exactly the empty ones", "statement": "An optional-attributes class removes from each node its XPath selects those of its listed attributes that are there and empty, and leaves every other attribute and node as it is.", "quantifier": "all configurations of the class, all documents and memories", "why_tests_cant": "no shipped updater configures the class, and the combinations of listed, present and empty attributes are unbounded", "anchors": ["ramrod/base.py:OptionalAttributes", "ramrod/utils.py:remove_xml_attributes", "ramrod/stix/stix_1_0_1.py:STIX_1_0_1_Updater._update_optionals"]}
{"id": "C59", "title": "The base class serves every updater class", "statement": "For any updater class whose methods touch only the document they are handed: updating and cleaning leave every document of the caller as it is, on success and on any exception, alone and in a chain of registered classes; the methods are called on a copy of the caller's document, check before update, and only when one of the three documented exceptions is raised under force are cleaning and the update called again; other exceptions reach the caller unchanged, and the report lists exactly what the cleaning methods returned.", "quantifier": "all updater classes (arbitrary methods), all documents, memories, options and both settings of force", "why_tests_cant": "quantifies over code that others write against the base class", "anchors": ["ramrod/base.py:BaseUpdater.update", "ramrod/base.py:BaseUpdater.clean", "ramrod/base.py:BaseUpdater._clean", "ramrod/base.py:BaseUpdater._force_update", "ramrod/stix/__init__.py:update", "ramrod/cybox/__init__.py:update"]}
{"id": "C60", "title": "Forcing repairs the document as it was given", "statement": "When an attempt to update fails with a documented exception and force is set, the outcome is that of cleaning and then updating the document as it was given.", "quantifier": "all updater classes (arbitrary methods), all documents and options", "why_tests_cant": "quantifies over code that others write against the base class and over where it fails", "anchors": ["ramrod/base.py:BaseUpdater.update", "ramrod/base.py:BaseUpdater._force_update"]}
{"id": "C61", "title": "The XML helpers offered to updater authors do what they say", "statement": "Replacing a node puts the new one in its place and changes nothing else; removing nodes, in any order, repeated or nested, removes exactly them; a root is never removed or replaced; a copy is a new element that belongs to no document and differs only in its name, if one was given; removing attributes removes exactly the listed ones of that node; a new id replaces the id and nothing else, and without an id there is a KeyError and no change; the type information is the two texts around the only colon of xsi:type, KeyError without the attribute, ValueError without exactly one colon; the namespace of a type is the one its prefix is bound to at the node, KeyError if there is none.", "quantifier": "all nodes of all documents in all memories, all lists of nodes and attributes, all id functions", "why_tests_cant": "positions, nestings and orders of nodes are unbounded", "anchors": ["ramrod/utils.py:replace_xml_element", "ramrod/utils.py:remove_xml_element", "ramrod/utils.py:remove_xml_elements", "ramrod/utils.py:copy_xml_element", "ramrod/utils.py:remove_xml_attributes", "ramrod/utils.py:new_id", "ramrod/utils.py:get_type_info", "ramrod/utils.py:get_ext_namespace"]}
{"id": "C62", "title": "Helpers that no shipped updater relies on do what they say", "statement": "A node is a leaf if and only if it has no child elements; removing the schema locations removes that attribute of the root and nothing else; the prefix found for a namespace is bound to it, and is found whenever there is one; applying the namespace updates puts every element below the root into the successor of its namespace and changes nothing else, without an exception; the text of a node is None if it has children, a CDATA section if it contains one, and its text otherwise.", "quantifier": "all nodes of all documents in all memories, all namespace tables", "why_tests_cant": "names, namespaces, texts and documents are unbounded", "anchors": ["ramrod/base.py:BaseUpdater._is_leaf", "ramrod/base.py:BaseUpdater._get_ns_alias", "ramrod/base.py:BaseUpdater._remove_schemalocations", "ramrod/base.py:BaseUpdater._apply_namespace_updates", "ramrod/utils.py:get_node_text"]}
{"id": "C63", "title": "Cleaning over and over comes to an end", "statement": "Once a STIX document has been cleaned with success, cleaning the result again and again always succeeds and leads, in fewer rounds than the document has nodes, to a document in which nothing is left to clean: no untranslatable node, no shared id, and another cleaning changes nothing. How many rounds it takes depends on the document: no fixed number is enough for all.", "quantifier": "all STIX 1.0 and 1.0.1 documents, all options, all numbers of rounds, all id functions whose ids are new", "why_tests_cant": "documents and the number of cleanings they need are unbounded", "anchors": ["ramrod/base.py:BaseUpdater.clean", "ramrod/base.py:BaseUpdater._clean_disallowed", "ramrod/stix/stix_1_0.py:STIX_1_0_Updater._get_disallowed", "ramrod/stix/stix_1_0_1.py:STIX_1_0_1_Updater._get_disallowed"]}
{"id": "C64", "title": "Calls do not disturb each other", "statement": "However many calls a program makes to the update functions, to the updaters' update and clean methods and to the parser, and whether they return or raise, no document in memory changes, nothing returned by an earlier call changes afterwards (its document, removed subtrees, reported nodes and their ids), and an update of a document comes to the same result or error at any time; a forced one too, provided the new ids depend on nothing but the old ids (with ids made anew for every call it need not).", "quantifier": "all sequences of calls of any length with any arguments, all initial memories, all points of the sequence, all options", "why_tests_cant": "sequences of calls are unbounded and every call may fail half-way at any point", "anchors": ["ramrod/__init__.py:update", "ramrod/stix/__init__.py:update", "ramrod/cybox/__init__.py:update", "ramrod/base.py:BaseUpdater.update", "ramrod/base.py:BaseUpdater.clean", "ramrod/utils.py:get_etree_root"]}
{"id": "C65", "title": "Calls made at the same time, and interrupted calls", "statement": "When several threads call the update functions, the updaters' update and clean methods or the parser on documents that are there, sharing them or not, then at every moment and wherever any call has been interrupted the documents are unchanged; a call that has finished has come to the outcome it comes to alone, and what it has returned is not changed by the calls that go on; no schedule goes on for ever and no call is held up by another. For forced updates and cleaning this needs new ids that depend on nothing but the old ids: with ids made anew the schedule decides which call gets which.", "quantifier": "all numbers of threads, all calls with any arguments, all initial memories, all interleavings of their accesses, all points of interruption", "why_tests_cant": "the number of interleavings grows exponentially with the number of accesses, and a run shows one of them", "anchors": ["ramrod/__init__.py:update", "ramrod/stix/__init__.py:update", "ramrod/cybox/__init__.py:update", "ramrod/base.py:BaseUpdater.update", "ramrod/base.py:BaseUpdater.clean", "ramrod/utils.py:get_etree_root", "ramrod/utils.py:copy_xml_element"]}
{"id": "C66", "title": "The caller's id function may do as it likes", "statement": "Whatever function the caller sets as UpdateOptions.new_id_func - it may change anything in the document it is handed, and may raise - the caller's documents stay as they are. Without force it is never called. When a document is cleaned, or a refused one is updated by force, it is called once for each element of each group of duplicated ids and for nothing else, in turn; an exception it raises is the outcome of the call, and the groups are reported under the old ids whatever it has done.", "quantifier": "all id functions that keep to the document of the node they are given, all documents, options, versions and memories", "why_tests_cant": "the function is the caller's: tests try one or two, the claim is about all of them", "anchors": ["ramrod/options.py:UpdateOptions", "ramrod/stix/stix_1_0_1.py:_clean_duplicates", "ramrod/cybox/cybox_2_0_1.py:_clean_duplicates", "ramrod/base.py:BaseUpdater.update", "ramrod/base.py:BaseUpdater.clean", "ramrod/__init__.py:update"]}
{"id": "C67", "title": "A run of the command line tool that is cut short does no harm it cannot undo", "statement": "Wherever a run of ramrod_update.py is killed, and whichever access to files or streams the system refuses: no file but the named output file is changed; if the update fails, not even that; the output file is as it was or holds a beginning of the updated document; status 0 is given only with the whole document in place and all reports printed after it, status 1 only after a documented error was explained in full; a report is never seen before the document is complete; and running the tool again afterwards gives what the first run would have given, unless input and output are the same file. (Updating a file in place is not safe: a killed run can leave it empty.)", "quantifier": "all command lines, files, memories, XML libraries, and all sequences of succeeding, refused and fatal accesses", "why_tests_cant": "a test picks a few points to fail at; the claim is about every crash point and every combination of refused accesses", "anchors": ["ramrod/scripts/ramrod_update.py:main", "ramrod/scripts/ramrod_update.py:_write_xml", "ramrod/scripts/ramrod_update.py:_validate_args", "ramrod/scripts/ramrod_update.py:_write_removed", "ramrod/scripts/ramrod_update.py:_write_remapped_ids", "ramrod/scripts/ramrod_update.py:_print_update_error"]}
{"id": "C68", "title": "The namespace script only prints, and prints whole or not at all unless cut short", "statement": "Wherever a run of update_ns.py is killed, and whichever access to files or streams the system refuses: no file is changed; standard output is empty or a beginning of the updated document, and empty unless the input could be read and parsed, both namespace lists were there and the update succeeded; status 0 is given only with the whole document printed, and that document is the input renamed as the two lists say, line by line; a missing or unreadable input file gives a message and status 2, text that is not XML, a missing list or an impossible update a traceback with nothing printed; a run depends on no other files than its input and its lists (a file named like a predefined list is not read), and running it again gives what the first run would have given.", "quantifier": "all command lines, files, standard inputs, XML libraries, and all sequences of succeeding, refused and fatal accesses", "why_tests_cant": "a test picks a few points to fail at and a few list files; the claim is about every crash point, every combination of refused accesses and every list file", "anchors": ["ramrod/scripts/update_ns.py:main", "ramrod/scripts/update_ns.py:get_namespace_list", "ramrod/scripts/update_ns.py:parse_args", "ramrod/scripts/update_ns.py:update_from_lists", "ramrod/scripts/update_ns.py:special_case_version_update"]}
{"id": "C69", "title": "A field that keeps its type gets its new name and keeps what is in it", "statement": "A translatable field class without XPATH_VALUE replaces every node that XPATH_NODE selects, inside another selected node or not, by an element with the new name (or the old one, if none is given), the same children in the same order, and the attributes copied and overridden as configured; every other node of the document is unchanged, and so are text and the meaning of prefixes. (As shipped the text of the field and the text behind it are lost, so are the declarations on it, which leaves types of values inside without meaning; and if the path selects the root, the document loses everything in it.)", "quantifier": "all documents, all such classes (paths, names, attribute tables)", "why_tests_cant": "fields can be nested in each other to any depth, and nodes are moved while the list of fields is being worked off; no shipped class exercises the code", "anchors": ["ramrod/base.py:TranslatableField._translate_value", "ramrod/base.py:TranslatableField._translate_attributes", "ramrod/base.py:TranslatableField.translate", "ramrod/utils.py:replace_xml_element"]}
{"id": "C70", "title": "Runs of the tools at the same time do not disturb each other", "statement": "When any number of calls of the update tool and of the namespace script run at the same time, a call whose input and output files no other call writes ends as it would by itself, with the same output and the same files, and at every moment before that it has done what such a run has done by then; so status 0 means the whole updated document, an output file never holds anything but its old content or a beginning of its document, and files that are nobody's output stay as they are. If nothing goes wrong outside, the order in which the calls get their turns makes no difference. All calls come to an end if none is left waiting for ever. (A call that reads what another one is writing can find a part of it, and fail.)", "quantifier": "all lists of calls, files, interleavings of their accesses, failures and kills of any of them", "why_tests_cant": "the number of interleavings grows exponentially with the accesses, and a test sees the one the machine happens to choose", "anchors": ["ramrod/scripts/ramrod_update.py:main", "ramrod/scripts/ramrod_update.py:_write_xml", "ramrod/scripts/ramrod_update.py:_validate_args", "ramrod/scripts/update_ns.py:main", "ramrod/utils.py:get_etree_root"]}
{"id": "C71", "title": "Elements keep their names, apart from the documented renamings", "statement": "In the document an update returns and in the removed nodes it reports, every element that comes from the given document is an element with the same name, or with the name that the steps of the update are documented to give to that name: the four misspelt CybOX names and the handle of a mailslot corrected by the step from CybOX 2.0.1 (and STIX 1.0.1), the namespace of Windows drivers, contributors becoming identities, related campaigns becoming campaigns, and the namespaces of STIX 1.2.1. In each step a name changes at most once.", "quantifier": "all documents with any nesting, all starting and target versions, all options, force on or off, all three entry points", "why_tests_cant": "any element of any name anywhere in any document, and every chain of steps", "anchors": ["ramrod/base.py:RenamedField", "ramrod/base.py:TranslatableField", "ramrod/base.py:BaseUpdater._update_nsmap", "ramrod/utils.py:replace_xml_element", "ramrod/cybox/cybox_2_0_1.py:Cybox_2_0_1_Updater", "ramrod/stix/stix_1_0_1.py:STIX_1_0_1_Updater", "ramrod/stix/stix_1_1.py:STIX_1_1_Updater", "ramrod/stix/stix_1_2.py:STIX_1_2_Updater"]}
{"id": "C72", "title": "Nodes keep their texts, apart from the documented changes", "statement": "In the document an update returns and in the removed nodes it reports, every element, comment and processing instruction that comes from the given document has its text and the text following it, changed by nothing but the following: the step from CybOX 2.0 (and STIX 1.0) rewrites the separators of lists, a step replaces an outdated term of its vocabularies by the documented new term, only if vocabularies are updated, and an element that a step moves to another namespace loses the text following it and may lose its own. In particular a text without separators that is no outdated term is never altered, only ever lost with a namespace move, and in steps that move no namespace it stays. Comments and processing instructions come out exactly as they were, including the text following them.", "quantifier": "every document with distinct attribute names per element, every start and target version, every options, with or without force, every node of the result and of the removed subtrees", "why_tests_cant": "The text of every node of an arbitrary document has to survive every pass of every step; a test sees the texts of the nodes in its samples.", "anchors": ["ramrod/base.py:BaseUpdater._update_nsmap", "ramrod/base.py:Vocab", "ramrod/base.py:TranslatableField", "ramrod/utils.py:replace_xml_element", "ramrod/utils.py:copy_xml_element", "ramrod/cybox/cybox_2_0.py:Cybox_2_0_Updater", "ramrod/cybox/cybox_2_0_1.py:Cybox_2_0_1_Updater", "ramrod/stix/stix_1_0.py:STIX_1_0_Updater", "ramrod/stix/stix_1_2.py:STIX_1_2_Updater"]}
{"id": "C73", "title": "An update invents nothing", "statement": "Every element, comment and processing instruction in the document an update returns and in the removed nodes it reports either comes from a node of the given document or is one of the elements that the steps are documented to make: the DNT, Vary and Refresh fields put in place of the old ones, the Contributing_Sources and Source wrappers of contributors, the Exploit_Target wrapper, the Related_Campaign wrapper, the Source, Identity and Name of a structured source, or what was pasted as markup in the text of a Source, with the changes later steps make to it. An update that passes through neither 1.0.1 nor 1.1 makes no new node at all.", "quantifier": "every document with distinct attribute names per element, every start and target version, every options, with or without force, every node of the result and of the removed subtrees", "why_tests_cant": "A test compares the documents it has; that no pass of any step adds a stray node to an arbitrary document is a claim about all of them.", "anchors": ["ramrod/base.py:TranslatableField", "ramrod/utils.py:replace_xml_element", "ramrod/cybox/cybox_2_0_1.py:Cybox_2_0_1_Updater", "ramrod/stix/stix_1_0_1.py:STIX_1_0_1_Updater", "ramrod/stix/stix_1_1.py:STIX_1_1_Updater"]}
