{"claims": [
{"property": "C01", "status": "proved", "theorems": ["C01_update_keeps_documents", "C01_stix_update_keeps_documents", "C01_cybox_update_keeps_documents", "C01_updater_keeps_documents"], "note": ""},
{"property": "C02", "status": "proved", "theorems": ["C02_root_selects_language"], "note": ""},
{"property": "C03", "status": "proved", "theorems": ["C03_stix_versions_validated", "C03_cybox_versions_validated"], "note": ""},
{"property": "C04", "status": "proved", "theorems": ["C04_stix_steps", "C04_cybox_steps", "C04_stix_step", "C04_cybox_step"], "note": ""},
{"property": "C05", "status": "proved", "theorems": ["C05_stix_composition", "C05_cybox_composition"], "note": ""},
{"property": "C06", "status": "proved", "theorems": ["C06_stix_declares_target", "C06_cybox_declares_target", "C06_update_declares_target", "C06_other_roots_refuted"], "note": "For documents whose root is the top-level element; C06_other_roots_refuted shows that other roots keep their version."},
{"property": "C07", "status": "proved", "theorems": ["C07_versions_brought", "C07_1_2_root", "C07_stix_cybox_versions", "C07_cybox_versions", "C07_new_components_refuted"], "note": "every component of the document worked on; C07_new_components_refuted: a related campaign with a version attribute becomes a component during the step from 1.1 and keeps its old version"},
{"property": "C08", "status": "proved", "theorems": ["C08_stix_mismatch", "C08_stix_embedded_mismatch", "C08_cybox_mismatch", "C08_stix_accepted", "C08_cybox_accepted", "C08_stix_decided", "C08_cybox_decided"], "note": ""},
{"property": "C09", "status": "proved", "theorems": ["C09_stix_1_0", "C09_stix_1_0_1", "C09_cybox_2_0_1", "C09_exactly", "C09_other_steps"], "note": ""},
{"property": "C10", "status": "proved", "theorems": ["C10_check_predicts_update"], "note": "for documents given by their root element"},
{"property": "C11", "status": "proved", "theorems": ["C11_force_is_conservative"], "note": ""},
{"property": "C12", "status": "proved", "theorems": ["C12_forced_step_no_documented_error", "C12_forced_update_no_documented_error", "C12_stix_forced_cleans_first", "C12_cybox_forced_cleans_first"], "note": ""},
{"property": "C13", "status": "partial", "theorems": ["C13_cybox_nothing_left", "C13_stix_no_id_shared", "C13_stix_nothing_left_refuted", "C13_stix_1_0_nothing_left_partial", "C13_stix_1_0_1_nothing_left_partial", "C13_stix_1_0_exactly", "C13_stix_1_0_1_exactly", "C13_default_ids_fresh"], "note": "CybOX: full, given that the ids drawn are fresh. STIX: no shared id is left (full); that no untranslatable node is left is false (a Malware element emptied by another rule, refuted), and C13_stix_*_exactly say for every document whether one is left: exactly if some Malware or Attack_Patterns element stays without a child element of another kind. Oracles: xs:dateTime has simple content."},
{"property": "C14", "status": "proved", "theorems": ["C14_stix_clean", "C14_cybox_clean", "C14_survivors"], "note": ""},
{"property": "C15", "status": "proved", "theorems": ["C15_node_by_node", "C15_stix_listed", "C15_cybox_listed", "C15_other_steps", "C15_default_id"], "note": ""},
{"property": "C16", "status": "proved", "theorems": ["C16_stix_groups", "C16_cybox_groups", "C16_reported_groups"], "note": ""},
{"property": "C17", "status": "proved", "theorems": ["C17_stix_vocabularies", "C17_cybox_vocabularies"], "note": "side conditions: contributors and mailslot handles declare no prefixes of their own (step from 1.0.1 / 2.0.1); the text of WinDriver elements, which change namespace, is the subject of C24"},
{"property": "C18", "status": "partial", "theorems": ["C18_stix_reference_refuted", "C18_cybox_reference_refuted", "C18_stix_reference_partial", "C18_cybox_reference_partial", "C18_stix_broken_never_succeeds", "C18_cybox_broken_never_succeeds"], "note": "False of the code for two vocabularies whose reference is a tuple (refuted with witnesses). Proved for every document without a reference on values of those two; and exactly so: a step never succeeds on a document in which such a value with a reference is carried over. The string stored on success is in C17. Missing: nothing provable, the rest is false."},
{"property": "C19", "status": "proved", "theorems": ["C19_stix_vocabularies_off", "C19_cybox_vocabularies_off"], "note": "xsi:type, vocab_name and vocab_reference of every node are kept; C41 and C40 say the same about all other effects with the option on or off"},
{"property": "C20", "status": "proved", "theorems": ["C20_stix_removed", "C20_cybox_removed", "C20_stix_1_0_1_removed", "C20_left_exactly", "C20_empty"], "note": "Result with the option on = result with it off, pruned; for STIX 1.0.1 the CybOX removals come before the other STIX changes."},
{"property": "C21", "status": "partial", "theorems": ["C21_stix_text_kept_partial", "C21_cybox_text_kept_partial", "C21_stix_text_kept_exactly", "C21_cybox_text_kept_exactly", "C21_removal_keeps_text_partial", "C21_following_text_refuted", "C21_text_behind_comment_refuted"], "note": "False in general: text behind a removed element and text behind a comment in it is lost (refuted). Proved for documents without such text; C21_*_text_kept_exactly shows that this condition is exact."},
{"property": "C22", "status": "proved", "theorems": ["C22_stix_locations", "C22_cybox_locations", "C22_words_determined", "C22_lists_determined", "C22_capec_refuted"], "note": "Root's list entry by entry against an independent table of published schema locations; other nodes keep theirs. C22_capec_refuted: the CAPEC 2.7 location is missed in the step to STIX 1.1 (misspelt key in the code)."},
{"property": "C23", "status": "proved", "theorems": ["C23_names_moved", "C23_attributes_stay"], "note": "Every node is carried over; name, declarations, text and attributes of each."},
{"property": "C24", "status": "partial", "theorems": ["C24_leaf_text_kept_partial", "C24_text_left", "C24_mixed_text_refuted", "C24_following_text_refuted"], "note": "False in general: text of elements with children and text behind elements in a replaced namespace is lost (refuted). Proved for documents without such text; C24_text_left says for every document exactly which text is left."},
{"property": "C25", "status": "partial", "theorems": ["C25_cybox_lists_partial", "C25_stix_lists_partial", "C25_unmarked_items", "C25_items_told_apart", "C25_items_determined", "C25_items_exist", "C25_marked_items_refuted", "C25_nested_properties_refuted"], "note": "False for items that cannot be told apart once written with the new separator and for nested Properties elements (refuted). The text afterwards is stated exactly for every value, and the items are kept exactly when they can be told apart."},
{"property": "C26", "status": "partial", "theorems": ["C26_cybox_2_0_1", "C26_stix_1_0_1", "C26_stix_1_1_partial", "C26_replaced_determined", "C26_renamed_determined", "C26_source_text_refuted", "C26_missing_source_refuted", "C26_plain_text_kept", "C26_reading_determined", "C26_only_plain_text_kept"], "note": "All translations of the three steps are related to the document before and after by an inductive relation. Sources: for every text without tags the name is what an XML parser reads there, and unreadable text stops the step; so the text is kept exactly where it is plain (C26_plain_text_kept, C26_only_plain_text_kept). False otherwise: pasted text that looks like an entity is changed and missing text becomes the name None (both refuted)."},
{"property": "C27", "status": "proved", "theorems": ["C27_stix_step_changes", "C27_cybox_step_changes", "C27_stix_step_complete", "C27_cybox_step_complete"], "note": "the list of changes of each step is SpecStep.v"},
{"property": "C28", "status": "proved", "theorems": ["C28_stix_no_crash", "C28_cybox_no_crash", "C28_stix_crash_explained", "C28_cybox_crash_explained", "C28_inner_prefix_refuted"], "note": "All 8 steps, any document, forced or not; each condition shown necessary by a document meeting the other seven (the newest: a text with a CDATA section and \"]]>\" makes a step that moves its element fail); an in-scope but not root-level prefix is shown not to be enough."},
{"property": "C29", "status": "proved", "theorems": ["C29_stix_get_version", "C29_cybox_get_version"], "note": ""},
{"property": "C30", "status": "proved", "theorems": ["C30_version_equality", "C30_version_denotes_one", "C30_version_range", "C30_order_strict_total"], "note": ""},
{"property": "C31", "status": "partial", "theorems": ["C31_cybox", "C31_stix", "C31_stix_1_1_partial", "C31_stix_1_0_refuted", "C31_stix_1_0_partial", "C31_cybox_update", "C31_stix_update_refuted", "C31_stix_update_partial", "C31_stix_1_1_plain_partial", "C31_stix_1_1_refuted", "C31_stix_1_0_exactly"], "note": "CybOX and STIX 1.0.1, 1.1.1: proved for every document. From STIX 1.1: documents whose root is a package, or without markup in source texts; refuted otherwise. From STIX 1.0 the property is false (two kinds of CybOX-bearing elements keep their old version): refuted, and C31_stix_1_0_exactly shows that exactly the documents where these declare 2.0.1 are accepted. Consequences for whole updates likewise."},
{"property": "C32", "status": "proved", "theorems": ["C32_update_by_content", "C32_stix_update_by_content", "C32_cybox_update_by_content"], "note": ""},
{"property": "C33", "status": "partial", "theorems": ["C33_result_types_partial", "C33_step_types", "C33_unforced_types", "C33_result_types_refuted"], "note": "false in general: the default collections are swapped and stix.update returns a list; the types are stated exactly for every entry point"},
{"property": "C34", "status": "partial", "theorems": ["C34_names_renamed_partial", "C34_attributes_merged", "C34_renamed_exactly", "C34_script_partial", "C34_script_merges", "C34_lists_exist_unique", "C34_mapping_exists_unique", "C34_predefined_usable", "C34_fails_on_instructions", "C34_every_document_renamed_refuted"], "note": "False for documents with processing instructions (the script fails exactly on these) and for attributes that get the same name. Otherwise exact: of clashing attributes the last is left, everything else is renamed as claimed, and nothing is lost exactly if no two attributes of an element get the same name."},
{"property": "C35", "status": "proved", "theorems": ["C35_update_undone"], "note": ""},
{"property": "C36", "status": "partial", "theorems": ["C36_tables_agree_partial", "C36_tables_differ", "C36_target_list", "C36_source_list_partial", "C36_tables_agree_refuted"], "note": "false: a missing comma shifts the table; the seven strings on which the tables differ are listed, and the list is exact"},
{"property": "C37", "status": "proved", "theorems": ["C37_exit_status", "C37_options_exist"], "note": "argparse, the text of messages and the serialiser are not modelled; writing is taken not to fail"},
{"property": "C38", "status": "proved", "theorems": ["C38_qualified_split", "C38_unqualified_unchanged", "C38_parts_rebuild"], "note": ""},
{"property": "C39", "status": "partial", "theorems": ["C39_other_steps_can_be_forced_partial", "C39_stix_1_2_never_forced", "C39_every_step_can_be_forced_refuted"], "note": "false for STIX 1.2 (NotImplementedError); proved for the other six steps"},
{"property": "C40", "status": "proved", "theorems": ["C40_stix_nodes_carried", "C40_cybox_nodes_carried", "C40_C41_stix_update", "C40_C41_cybox_update", "C40_C41_update", "C40_C41_stix_nothing_lost", "C40_C41_cybox_nothing_lost", "C40_C41_nothing_lost"], "note": "carried: labels of the new document are a sublist of the old ones, every node not inside a replaced field is there below the same labelled ancestors; [e] is the new document with every node that comes from the document labelled by its place; C40_C41_*: whole updates over several steps; *_update: without force or with no removed nodes reported; *_nothing_lost: any update, every node is in the new document or in a reported removed subtree, never in both"},
{"property": "C41", "status": "proved", "theorems": ["C41_stix_other_attributes", "C41_cybox_other_attributes", "C40_C41_stix_update", "C40_C41_cybox_update", "C40_C41_update", "C40_C41_stix_nothing_lost", "C40_C41_cybox_nothing_lost", "C40_C41_nothing_lost"], "note": "hypothesis distinct_attributes holds of every XML document; C40_C41_*: whole updates over several steps; *_nothing_lost: also with force, for the new document and the removed subtrees"},
{"property": "C42", "status": "proved", "theorems": ["C42_replaced_ids", "C42_stix_replaced_ids", "C42_cybox_replaced_ids", "C42_new_ids_differ", "C42_removed_readable"], "note": "new_id_func is modelled as a function of the call number and the old id"},
{"property": "C43", "status": "partial", "theorems": ["C43_failure_explained", "C43_error_nodes_readable", "C43_node_always_named_refuted", "C43_node_named_partial"], "note": "proved except that the node with a wrong version is printed only when it has child nodes (refuted, and characterised exactly); line numbers and message texts are not modelled"},
{"property": "C44", "status": "proved", "theorems": ["C44_attributes_kept", "C44_ids_kept", "C44_no_new_references", "C44_references_resolve", "C44_forced_accounted", "C44_forced_references_refuted"], "note": "Without force: kept, no new references, references still resolve (sources without markup characters). With force: in the document, a reported removed node, or a reported replaced id; that references resolve after force is refuted by a witness."},
{"property": "C45", "status": "proved", "theorems": ["C45_text_kept", "C45_text_seen", "C45_forced_accounted", "C45_no_new_text", "C45_no_new_tails", "C45_no_new_sections", "C45_following_text_refuted", "C45_invented_name_refuted"], "note": "Text of leaves kept without force, accounted for with force; every text comes from the old document (sources without markup characters), and every CDATA section is an old one with its text. Loss of text behind translated fields and the name \"None\" are shown by witnesses."},
{"property": "C46", "status": "proved", "theorems": ["C46_language_kept", "C46_stix_refused", "C46_cybox_refused", "C46_update_not_twice", "C46_stix_version_read", "C46_cybox_version_read"], "note": "packages and Observables documents; the language of the root for every root"},
{"property": "C47", "status": "proved", "theorems": ["C47_stix_defaults", "C47_cybox_defaults", "C47_update_defaults"], "note": "exact equality of result and memory"},
{"property": "C48", "status": "proved", "theorems": ["C48_update_no_crash", "C48_unforced", "C48_cybox_no_crash", "C48_stix_step_keeps", "C48_cybox_step_keeps"], "note": "Whole updates, all entry points; NotImplementedError (forcing 1.2) is the only undocumented exception and is shown to occur. Each condition is shown to be needed."},
{"property": "C49", "status": "partial", "theorems": ["C49_unforced_output", "C49_output_file", "C49_output_alone_partial", "C49_output_alone_refuted", "C49_failure_silent_refuted"], "note": "Full for runs without force and for output files. With force the reports follow the document on standard output (refuted, and characterised exactly); on failure the heading of the duplicates is printed on standard output (refuted)."},
{"property": "C50", "status": "proved", "theorems": ["C50_occurrences", "C50_ids_stay_unique", "C50_markup_refuted"], "note": "the condition on sources is needed (C50_markup_refuted)"},
{"property": "C51", "status": "partial", "theorems": ["C51_stix_prefixes_partial", "C51_cybox_prefixes_partial", "C51_stix_prefixes_kept_partial", "C51_cybox_prefixes_kept_partial", "C51_stix_types_partial", "C51_cybox_types_partial", "C51_stix_1_2_types", "C51_driver_type_refuted", "C51_contributors_refuted"], "note": "False for the type of CybOX 2.0.1 driver objects, which stays in the replaced namespace (C51_driver_type_refuted), and for declarations on contributors and mailslot handles that are taken away (C51_contributors_refuted). Proved without them: an exact formula for the meaning of every prefix and type at every carried node."},
{"property": "C52", "status": "partial", "theorems": ["C52_stix_partial", "C52_cybox_partial", "C52_ramrod_stix_partial", "C52_ramrod_cybox_partial", "C52_prefix_refuted", "C52_root_refuted"], "note": "Needs two conditions, both shown necessary by witnesses: a prefix of a vocabulary namespace stands for nothing else in the document (otherwise taking Contributors away uncovers an outdated type), and the root has no xsi:type (it is never looked at). Also assumes sources without markup characters, as C26 and C50 do."},
{"property": "C53", "status": "proved", "theorems": ["C53_check_only_refuses", "C53_stix_unchecked_versions", "C53_cybox_unchecked_versions", "C53_ids_unforced", "C53_ids_forced"], "note": ""},
{"property": "C54", "status": "proved", "theorems": ["C54_same_as_alone", "C54_alone_succeeds"], "note": "For pure CybOX content below elements that are not of CybOX and not rebuilt or removed by the step (Contributors, markings); the document root declares the prefixes in scope at the place."},
{"property": "C55", "status": "proved", "theorems": ["C55_unknown_version_refused", "C55_last_registered_wins", "C55_helpers_wired", "C55_order_irrelevant", "C55_imports", "C55_imports_any_order", "C55_every_step_has_an_updater", "C55_others_left_alone", "C55_shared_helper_refuted"], "note": "Refutation: a class that reuses a helper of another updater takes the helper's namespace table away from it; the claim therefore asks that no helper is shared."},
{"property": "C56", "status": "proved", "theorems": ["C56_step", "C56_clean", "C56_stix", "C56_cybox", "C56_update", "C56_repeatable", "C56_assembled", "C56_same_ids_refuted"], "note": "Any order of the dictionaries of duplicated ids, different in each step, gives the end of the original order with the numbers of the id function calls rearranged: same memory, result and error (dictionaries compared as Python compares them). C56_same_ids_refuted shows that the rearrangement is needed for id functions that count or draw random values; C56_repeatable that nothing differs for the others. C56_assembled: reordering the finished dictionary covers the orders inside the code that builds it. The order in which the command-line tool prints dictionaries is not stated."},
{"property": "C57", "status": "proved", "theorems": ["C57_renamed", "C57_translated", "C57_optional_elements", "C57_found", "C57_found_in_types", "C57_vocabulary", "C57_vocabulary_fails", "C57_vocabularies_order", "C57_namespaces"], "note": "Every configuration of the helper classes, over any memory. XPath expressions are those of the modelled subset; an expression whose parts are partly absolute and partly relative is outside. The branch for an empty XPATH_VALUE, which no class uses, is C69. Every shipped list of vocabularies is shown to be unrelated; C57_related_case shows that the condition is needed."},
{"property": "C58", "status": "partial", "theorems": ["C58_one_attribute_partial", "C58_exactly", "C58_refuted"], "note": "False as soon as the class lists two attributes (C58_refuted): when one of the listed attributes is empty, all of them are removed. C58_exactly states what happens for every list; C58_one_attribute_partial is the promise for a class with one attribute."},
{"property": "C59", "status": "proved", "theorems": ["C59_update_untouched", "C59_clean_untouched", "C59_chain_untouched", "C59_shipped", "C59_sequence"], "note": "For an arbitrary record of overridable methods under a contract (each touches only the document it is handed); the seven shipped classes are shown to meet it."},
{"property": "C60", "status": "partial", "theorems": ["C60_as_given_partial", "C60_refuted"], "note": "Holds for classes whose failing methods have changed nothing; refuted in general: update() hands the half-updated copy to _force_update."},
{"property": "C61", "status": "proved", "theorems": ["C61_replace", "C61_remove", "C61_root_stays", "C61_remove_all", "C61_copy", "C61_attributes", "C61_new_id", "C61_type_info", "C61_ext_namespace"], "note": "For any node of any well-formed memory; distinct attributes where attributes are removed. The replaced or removed node lives on in memory by itself."},
{"property": "C62", "status": "partial", "theorems": ["C62_leaf", "C62_schemalocations", "C62_applied_partial", "C62_applied_fails", "C62_alias_exactly", "C62_text_exactly", "C62_applied_refuted", "C62_local_name_refuted", "C62_alias_refuted", "C62_text_refuted"], "note": "The code violates the property: _get_ns_alias looks the namespace up among the prefixes, _apply_namespace_updates raises for an element without a namespace and changes local names that contain the namespace, get_node_text takes a CDATA section behind the node for one inside. Exact behaviour is proved; leaf and schema locations hold."},
{"property": "C63", "status": "proved", "theorems": ["C63_stix_1_0", "C63_stix_1_0_1", "C63_determined", "C63_no_fixed_number"], "note": "all STIX versions that can be cleaned; for CybOX one cleaning is enough (C13)"},
{"property": "C64", "status": "proved", "theorems": ["C64_documents_stay", "C64_results_stay", "C64_repeatable", "C64_forced_repeatable", "C64_new_ids_tell_calls_apart"], "note": "Any list of calls, any outcomes. A forced update is repeatable when the id function ignores the number of its call; C64_new_ids_tell_calls_apart shows the condition is needed."},
{"property": "C65", "status": "proved", "theorems": ["C65_programs_are_the_calls", "C65_documents_intact", "C65_finished_as_alone", "C65_same_as_ever", "C65_results_stay", "C65_no_endless_schedule", "C65_never_held_up", "C65_all_finish", "C65_memory_in_order", "C65_can_be_prepared", "C65_made_anew_refuted"], "note": "every schedule of any calls, interrupted anywhere; forced calls need reproducible ids (the refutation shows why)"},
{"property": "C66", "status": "proved", "theorems": ["C66_modelled", "C66_documents_untouched", "C66_not_called_unforced", "C66_stix_clean", "C66_cybox_clean", "C66_stix_forced", "C66_cybox_forced"], "note": "the id function may do anything within the document it is handed"},
{"property": "C67", "status": "proved", "theorems": ["C67_undisturbed", "C67_other_files", "C67_failed_update", "C67_output_file", "C67_success", "C67_explained", "C67_reports_last", "C67_only_the_input_matters", "C67_run_again", "C67_any_beginning", "C67_in_place_refuted"], "note": "every crash point and refused access of ramrod_update.py; safety of in-place updates is refuted"},
{"property": "C68", "status": "proved", "theorems": ["C68_files_untouched", "C68_output", "C68_success", "C68_endings", "C68_refused_input", "C68_undisturbed", "C68_cases", "C68_document_renamed", "C68_lines_exist_unique", "C68_only_its_files_matter", "C68_run_again", "C68_any_beginning"], "note": "the namespace script as a process with files; output of a killed run can be any beginning (C68_any_beginning)"},
{"property": "C69", "status": "partial", "theorems": ["C69_moved", "C69_names", "C69_texts_partial", "C69_scopes_partial", "C69_text_refuted", "C69_type_refuted", "C69_root_refuted"], "note": "Missing, because the code does otherwise: text in and behind a translated field, declarations on it, and a document whose root is selected. C69_moved and C69_root_refuted say exactly what comes out."},
{"property": "C70", "status": "proved", "theorems": ["C70_by_itself", "C70_as_if_alone", "C70_undisturbed", "C70_success", "C70_output_file", "C70_other_files", "C70_any_order", "C70_all_end", "C70_reading_along_refuted"], "note": "any number of calls of both tools with interleaved accesses; two calls writing the same file at once are outside the statement; a call reading the output of another one is shown to fail (C70_reading_along_refuted)"},
{"property": "C71", "status": "proved", "theorems": ["C71_stix", "C71_cybox", "C71_update"], "note": "called (through names vs): an element stays an element and its name goes through at most one listed change per step; the renamings are listed in SpecWhole.v; that the renamings are carried out is in C23, C26 and C57"},
{"property": "C72", "status": "proved", "theorems": ["C72_stix", "C72_cybox", "C72_update", "C72_plain", "C72_comments", "C72_stix_comments", "C72_cybox_comments"], "note": "along (change vs) (told h) (told h'): kind, name, text and tail of a node go through listed changes only; C72_plain: texts that are neither lists nor terms are never altered; C72_*comments: nodes other than elements stay as they are; which elements the changes are made at is in the theorems about single passes"},
{"property": "C73", "status": "proved", "theorems": ["C73_stix", "C73_cybox", "C73_update", "C73_none_new", "C73_cybox_none_new", "C73_stix_all_given", "C73_cybox_all_given"], "note": "new_nodes (arises new change vs): a node without label is made new in one of the steps and changed since only as C72 says; the new elements are listed in SpecWhole.v; updates that pass through neither 1.0.1 nor 1.1 (CybOX: not through 2.0.1) give only nodes of the given document (_all_given); markup in the text of a Source goes through the parser oracle (see C26)"}
]}
