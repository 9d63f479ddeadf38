# Formal model of stix-ramrod: design

Sources: `/repo` (python), read as text.  Model and proofs: `rocq/theories/`,
Coq 8.16.1, standard library only.

## 1. How the code is modelled

| file | models | content |
|---|---|---|
| `Str.v` | Python string methods, `StrictVersion` | functions only |
| `Xml.v` | lxml nodes, node identity, the heap, exceptions | functions only |
| `XPath.v` | the XPath subset used by the code | functions only |
| `Utils.v` | `ramrod/utils.py` | functions only |
| `Base.v` | `ramrod/base.py`, `options.py`, `results.py`, helper classes | functions only |
| `Tables.v` | large literal tables of the updater classes (generated by `tools/gen_tables.py`) | data only |
| `Cybox.v` | `ramrod/cybox/*.py` | functions only |
| `Stix.v` | `ramrod/stix/*.py` | functions only |
| `Ramrod.v` | `ramrod/__init__.py` | functions only |
| `Cli.v` | `ramrod/scripts/ramrod_update.py` | functions only |
| `Disk.v` | `ramrod_update.py` again, with files and streams, each access of which can be refused or be the last (C67) | functions only |
| `UpdateNs.v` | `ramrod/scripts/update_ns.py` | functions only |
| `DiskNs.v` | `update_ns.py` again, with its main block, files and streams, as in `Disk.v` (C68) | functions only |
| `Jobs.v` | the programs of `Disk.v` and `DiskNs.v` as processes that share the files and take turns access by access (C70) | functions only |
| `Transfer.v` | `TranslatableField` for a class with an empty `XPATH_VALUE`, which no shipped class has (C69) | functions only |
| `Register.v` | `register_updater` and `_wire_nsmaps` of both packages | functions only |
| `IdFunc.v` | the classes that call `new_id_func`, and the entry points, with any program in its place (C66) | functions only |
| `Steps.v`, `Stepwise.v` | the same functions as programs of single accesses, for interleaving and interruption (C65) | functions only |
| `Spec.v`, `SpecNs.v`, `SpecUpdate.v`, `SpecCli.v` | words of the API-level statements | definitions |
| `SpecDoc.v`, `SpecPass.v`, `SpecStep.v` | what each part of a step, and each step, does to a document, as functions on trees | definitions |
| `SpecCheck.v`, `SpecClean.v`, `SpecReport.v`, `SpecCleaned.v`, `SpecChain.v`, `SpecRead.v`, `SpecTranslate.v`, `SpecIds.v`, `SpecText.v`, `SpecCount.v`, `SpecMeaning.v`, `SpecCurrent.v`, `SpecOptions.v`, `SpecEmbed.v`, `SpecRegister.v`, `SpecOrder.v`, `SpecHelper.v`, `SpecContract.v`, `SpecTool.v`, `SpecRounds.v`, `SpecSession.v`, `SpecThreads.v`, `SpecIdFunc.v`, `SpecDisk.v`, `SpecDiskNs.v`, `SpecTransfer.v`, `SpecJobs.v` | which documents are accepted, what is reported, what cleaning does, what translations do | definitions |
| `SpecTrace.v`, `SpecWhole.v`, `SpecField.v`, `SpecLocation.v`, `SpecName.v`, `SpecFault.v` | following nodes through a step; fields, schema locations, names, text, faults | definitions |
| `Lib`, `Frame`, `Api`, `Versions`, `NoFail`, `Scripts`, `Merged` | facts about the model as it stands (heap frame, entry points, exceptions, namespace script) | proofs |
| `Refine*`, `Relabel`, `Natural`, `Updates` | the heap programs compute the functions of `SpecPass`..`SpecUpdate`; identities do not matter | proofs |
| `Reports`, `UpdateFacts`, `Trace`, `Follow`, `Fields`, `Carried`, `Called`, `Told`, `Vocab`, `Worked`, `Marks`, `Root`, `Located`, `Declared`, `Moved`, `Codec`, `ListText`, `Optional`, `Faults`, `Forced`, `Kept`, `Terminal`, `Cleaned`, `Emptied`, `Chained`, `Refused`, `Meaning`, `Reading`, `Translated`, `Ids`, `Refs`, `Tally`, `Text`, `Words`, `Again`, `Plain`, `Sound`, `Current`, `Switches`, `Embedded`, `Registered`, `Order`, `Output`, `Helpers`, `Contract`, `Tools`, `Rounds`, `Sessions`, `StepRun`, `Blind`, `Owned`, `Threads`, `IdFuncs`, `Disks`, `DisksNs`, `Transfers`, `SideBySide`, `Whole` | consequences for single properties | proofs |
| `Samples.v` | documents for the examples | data |
| `Props*.v` | the property theorems, each with `Print Assumptions` and examples that meet the hypotheses | theorems |

* **Node identity.** lxml nodes are mutable objects.  Every node of the model
  carries a number; a Python reference is that number; the heap is the list of
  all trees alive (caller's documents, working copies, detached subtrees).
  Mutation in place, `deepcopy`, `parent.remove`, `parent.insert` are heap
  operations.  So "the input is not modified" and "loop over a list of nodes
  while detaching some of them" have their Python meaning.
* **Exceptions** are values of the result type; a raise keeps the mutations
  made so far, `try/except` is `try_catch`.
* **Class attributes** are records, **method overriding** is a record of
  methods (`updater`).  XPath strings are kept verbatim and parsed in the model.
* **Oracles** are explicit arguments (record `oracle`): libxml2's xs:dateTime
  validation, the XML parser on template text that contains markup, and the
  uuid stream.  Theorems quantify over all oracles.

## 2. Not modelled

* The XML parser and serialiser (an input file is what the parser makes of it;
  an output document is its tree).  Prefixes chosen by lxml when serialising,
  declarations libxml2 re-adds on copies taken below the declaring ancestor,
  removal of redundant declarations on moved nodes.
* CDATA sections in the text *behind* an element.  `get_node_text` looks for a
  section in the serialised element including its tail, so such a section behind
  an element without children counts as one in its text: if there is no text,
  `etree.CDATA(None)` raises TypeError, otherwise the copy gets a section that
  the original did not have.  What is said about sections and about failures
  holds for documents without such tails; only `Offered.get_node_text`, a
  separate model of that function, has them (C62).  `etree.CDATA` is taken to refuse a
  text with "]]>" in it (ValueError), as lxml's current releases do.
* Code points above 255; source lines; message texts of exceptions.
* `argparse`: the CLI is modelled from parsed arguments to how the process
  ends, the files and the two output streams.  In `Cli.v` accesses to them do
  not fail; in `Disk.v` any of them can; in `Jobs.v` accesses of other runs of
  the tools come in between.  Links between files, other programs writing the
  same files, two runs writing the same file at the same time, and buffers that
  hold back output are not modelled.
* Python 2 specifics.  (Helpers that no shipped updater calls are in
  `Offered.v`, the translation with an empty `XPATH_VALUE` in `Transfer.v`.)
* Time, memory, recursion limits.

## 3. Plan for each property

R = refinement: the monadic heap program is proved equal to a pure function on
document content; S = statement about that function or directly about the API.

| id | modelled by | proof |
|---|---|---|
| C01 | all of `Base`..`Ramrod` | frame predicate closed under all heap operations and control structures, any outcome |
| C02 | `Ramrod.update` | case analysis on root name |
| C03 | `validate_versions`, `stix_update`, `cybox_update` | case analysis over version tables, all strings |
| C04, C05 | version slice | induction on the list of steps |
| C06, C07 | `_update` of all updaters | R, then S per step; counterexample for a root in a foreign namespace |
| C08 | `_check_version` | R to first/all root elements; the check is decided: right versions or an error about versions (`C08_*_decided`) |
| C09, C10, C11, C12 | `updater_update` | R for checks; case analysis of try/except; C12 is false for STIX 1.2 (witness) |
| C13, C14, C15, C16 | `_clean*`, `_get_duplicates` | R to pruning / id substitution; C13: what a rule finds after cleaning it found before; full for CybOX, for STIX false in general (witness) and proved under a guard |
| C17, C18, C19 | `Vocab` | R to contextual map over nodes; C18 false (witness), and exactly when it fails: a step with vocabularies on never succeeds on a carried value that needs a tuple stored |
| C20, C21 | `OptionalElements` | R to pruning; C21 false (witness), the condition under which it holds is exact |
| C22 | `_update_schemalocs` | tokenising lemmas, round trip |
| C23, C24 | `_update_namespaces` | structural induction; C24 false (witness); the text that is left is described exactly |
| C25 | `_update_lists` | split/join/replace algebra on strings; nested objects witness |
| C26 | `Trans*` | R to top-down rewriting, then an inductive relation between the documents before and after each translation (`SpecTranslate`), shown to be functional; sources: false for text that looks like markup and for missing text (witnesses), and for text without tags the name is what an XML reader makes of it (relation `read_as`), the same text exactly where it is plain |
| C27 | whole `_update` | composition of all the R lemmas |
| C28 | whole `_update` | R gives exact error conditions (eight conditions on the document, one of them about CDATA sections); witnesses for necessity |
| C29, C30 | `get_version`, `StrictVersion` | direct |
| C31 | `_check_version` after `_update`, chains of steps | every package and every element carrying a CybOX version has the new one after the stamping pass, and each later pass keeps this (induction on the document); so the next check passes, and by induction on the steps a whole update never complains about versions. False for STIX 1.0 (Targeted_Technical_Details, Parameter_Observables: refuted); accepted exactly where these declare 2.0.1 (`C31_stix_1_0_exactly`: each pass is read backwards, `reflected`); from 1.1, for package roots or sources without markup, refuted otherwise |
| C32 | whole API | relational: runs from states with equal content |
| C33 | results | direct; partly false (witness) |
| C34, C35 | `UpdateNs` | structural induction |
| C36 | tables | computation; false (witness) |
| C37 | `Cli` | case analysis |
| C38 | `split_braced_name` | string induction |
| C40, C41 | whole `_update` | nodes labelled, steps shown natural in the labels (`Natural`), labels followed through each pass; for whole updates (`Whole`) along the chain of steps on one labelled document, the names that leave shrinking from step to step; with force the subtrees taken away before each step are followed too, so every node is in the new document or in a removed subtree, never in both |
| C42 | `clean`, all steps | renumbered nodes are kept by every later heap operation (`Kept`) |
| C43 | `Cli`, all errors | nodes named by an error are in memory; the claim that the node is always printed is false (witness) |
| C44 | every pass | an inductive predicate `retains` (an attribute outside replaced fields) preserved by every pass, by cleaning up to what is reported, then by the chain of steps; the converse as an invariant of all headers; references after force: false (witness) |
| C45 | every pass | an inductive predicate `says` (text of a leaf outside replaced fields) preserved like `retains` in C44; the converse as an invariant of all headers, closed under the four ways text is rewritten (`text_from`), together with the CDATA sections (`section_from`); text behind translated fields and the name "None": witnesses |
| C46 | both `update`s, `get_version` | the root keeps its local name through every pass; the declared version (C06) as the start of a second call, refused by C03 |
| C47 | both `update`s | equality of the two runs from the characterisation of C03 |
| C48 | both `update`s, every pass | the conditions of C28 as invariants: every pass keeps readable types, declared prefixes, references, plain sources, versions and whole CDATA sections (`steady`), the step 1.0 keeps the shape of fields; induction over the chain of steps |
| C49 | `Cli` | the two streams and the file as lists of lines, written by a small printing monad; an update without force reports nothing; the claim for forced runs is false (witness) |
| C50 | both `update`s, every pass | the number of occurrences of an attribute is additive over the tree; every pass, cleaning included, makes it no larger; induction over the chain of steps; the condition on sources is needed (witness) |
| C51 | every pass, `_update_nsmap` | nodes are followed together with their ancestors; the namespace pass changes the prefixes seen from a rebuilt element, all other passes keep the nearest declaration of every prefix; exact formula for the prefix afterwards, types by the vocabulary result of C17; the type of driver objects stays in the old namespace (witness), and declarations on elements that are taken away are lost (witness) |
| C52 | `Vocab`, every pass, whole updates | an invariant over all passes: prefixes of a vocabulary namespace stand for it everywhere, and no element whose type has such a prefix has an outdated name; each vocabulary pass adds its old names, later passes add types only by copying; carried through every chain and the renaming to 1.2.1. Needs that a vocabulary prefix stands for nothing else in the document and that the root has no type: witnesses show both are needed |
| C53 | `UpdateOptions`, `BaseUpdater.update`, `check_update` | comparison of two runs: a check that succeeds with version checking succeeds without; when only the version check fails there is nothing to clean, so the forced run continues with the same document; chains by induction; id functions are used for replaced ids only |
| C54 | the CybOX part of `STIX_1_0_Updater` and `STIX_1_0_1_Updater` against `Cybox_2_0_Updater` and `Cybox_2_0_1_Updater` | two runs side by side: a pass sees the content in the same way below an element of a package and below the root of a document whose prefixes are those in scope; the STIX passes do not touch pure CybOX content; excluded are places inside CybOX elements and inside the elements the step rebuilds or removes |
| C55 | `register_updater`, `_wire_nsmaps`, the two dictionaries, the helper classes' NSMAP attributes, the registrations made on import | induction over the history of registrations; the outcome of the imports is shown to be the tables and helper namespaces the other model files use |
| C56 | the dictionaries built by `_get_duplicates` and iterated by `_clean_duplicates`, run with every permutation of them | the calls of the id function in one order are those of the other order with their numbers dealt out by a bijection; exact effect of the loop over a duplicate-free list, composed over the steps of a chain |
| C57 | the helper classes of `base.py` with every configuration (namespaces, types, tables, XPath of the modelled subset), not only the shipped ones | the passes of the refinement read as relations between the old and the new tree, node by node; two vocabulary passes commute when neither looks at the other's types, lifted to permutations |
| C58 | `OptionalAttributes` with every list of attributes | exact effect (all listed attributes go when one is empty), the promise for one attribute, a counterexample for two |
| C59 | `BaseUpdater.update`, `clean`, `_clean`, `_force_update`, the loops over registered classes, for an arbitrary record of methods | the frame invariant of C01 with a contract on the methods (each minds its own document) as hypothesis, which the seven shipped classes are shown to meet; the calls read off as a big-step relation |
| C60 | the same | from the relation of C59 when the failing methods have changed nothing; a counterexample class otherwise: `update` goes on with the half-updated copy |
| C61 | `replace_xml_element`, `remove_xml_element(s)`, `copy_xml_element`, `remove_xml_attributes`, `new_id`, `get_type_info`, `get_ext_namespace` | any node of any document: an inductive relation says which node gives way to what; the loop over removed nodes by the bookkeeping invariant of the refinement |
| C62 | `Offered.v`: `_is_leaf`, `_get_ns_alias`, `_remove_schemalocations`, `_apply_namespace_updates`, `get_node_text` | exact behaviour; partial: `_get_ns_alias` looks the namespace up as a prefix, `_apply_namespace_updates` fails on elements without a namespace and changes local names that contain the namespace, `get_node_text` takes a section behind the node for one in it |
| C63 | `clean` called on what it has returned, `SpecRounds.v: cleaned_over` | induction on the size of the document: no rule finds the root, so a cleaning that finds something makes the document smaller; a chain of nested Malware elements shows that no fixed number of rounds is enough |
| C64 | `SpecSession.v: perform`, `after`: any list of calls, each made whatever became of the previous ones | every operation, stopped at any point, keeps memory well-formed and its roots (`Sessions.v: keeps`); documents are only added (C01); the result of an update is a function of the content of its document (C32) and, when forced, of the numbers given to the id function |
| C65 | `Steps.v`, `Stepwise.v`: every call as a program of single accesses (reading a node, changing its data, a deep copy, replacing a node, asking for an id, a namespace pass), `SpecThreads.v`: a machine that lets any thread make its next access | `StepRun.v` shows that the programs, run without interruption, are the functions of the model; a rely/guarantee logic (`Owned.v`) shows that a call changes only nodes it has made itself and looks only at those and at the documents that were there; so every schedule is simulated by the call alone (`Threads.v`), ids aside (`Blind.v`). XPath queries, deep copies and the namespace pass are single accesses; the identities of new nodes are set aside for each thread beforehand (in /repo they are addresses). Calls that make ids anew: a schedule with another result (witness) |
| C66 | `IdFunc.v`: both `_clean_duplicates` and everything above them with an arbitrary program as id function; elsewhere the id function only chooses an id (`Utils.v: apply_new_id`), which is shown to be the special case | the contract of C59 for the two classes; two runs with different functions compared; the loop over the groups read off as a sequence of calls, with the groups of C16 |
| C67 | `Disk.v`: the tool as a program of accesses to files and streams; the parser and the serialiser are arbitrary functions | bad weather only cuts a run short (each program does a beginning of what it does in clear weather); the run in clear weather is the one of `Cli.v`; the files are computed from the accesses done; in-place updates: false (witness), any beginning of the document can be left |
| C68 | `DiskNs.v`: the script as a program of accesses to files and streams; the parser and the serialiser are arbitrary functions | every run follows the run in clear weather, is cut off on the way with a beginning of its output, or takes a file it cannot open for missing; the clear run is computed from the files with the update of `UpdateNs.v`, so that C34 applies to what is printed |
| C69 | `Transfer.v`: the new element takes the children of the old one; a root has no place to put the new element, which then holds the content outside the document | induction over the fields found, with an invariant that relates the document so far to the original node by node (fields already done have ids no earlier one has); partial because the code loses text, tails and declarations of the field, and the content of a chosen root: refuted with the exact result |
| C70 | `Jobs.v`: any number of calls of both tools, each a tree of accesses; a schedule says whose access is next and whether it succeeds, is refused or is the last one | the tree means the program of `Disk.v`/`DiskNs.v` (by structure), it touches only its own files (by structure), so a schedule can be restricted to one call, whose run is then one of C67/C68; termination for fair schedules by induction over the trees; reading another call's output while it is written is refuted |
| C71 | whole `_update` | the names of labelled nodes followed through each pass (`Called`), then along the chain of steps (`Whole`); `SpecWhole` lists the renamings |
| C72 | whole `_update` | kind, name, text and following text of labelled nodes followed through each pass (`Told`), then along the chain of steps (`Whole`); `SpecWhole` lists the changes; `C72_plain` says which texts no change can touch |
| C73 | whole `_update` | every node after a pass is new or comes from a node (`sprung` in `Told`), followed along the chain (`grown` in `Whole`); `SpecWhole` lists the new elements; what a parser makes of markup in a Source's text is an oracle |
| C39 | `force_update`, `clean` | error predicate closed under all operations; false for STIX 1.2 (witness) |

Where the full English property is false of the code, the theorem
`..._refuted` exhibits a witness and the strongest true version is proved
under an explicit guard; `MANIFEST.json` then says `partial`.

## 4. Trusted base

* Coq 8.16.1's kernel (and `vm_compute` for the witnesses).
* `Print Assumptions` is printed under every property theorem; the expected
  output is "Closed under the global context" for all of them.  (A checker that
  lists everything loaded also shows `Coq.ssr.ssrunder.Under_rel.*`: fields of a
  module type of the standard library, loaded with it and used by no theorem.)
* The reading of `/repo` and lxml/libxml2 semantics expressed by `Str.v` to
  `UpdateNs.v`; each definition cites the lines it models.

## 5. How to read seeded/LOG.jsonl

* `first_failures` is what was seen: the lemmas and theorems that no longer
  proved when the edited copy was rebuilt.  A lemma that fails is skipped in the
  scratch copy so that the failures after it show up too.
* `theorems_failed` was mostly not seen in a rebuild.  For most lines it was worked
  out from the proof texts, by following which theorems use a lemma in
  `first_failures`, and some lines were completed by hand.
* A theorem listed there has lost its proof.  The log does not show that its
  statement is false of the edited program; where several theorems share one
  lemma, some of those listed are still true.
