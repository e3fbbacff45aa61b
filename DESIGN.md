# Formal model of hotmeal: design

Source: `/repo` (hotmeal, hotmeal-server, hotmeal-wasm, cinereus).  Model and
proofs: `rocq/theories`, Coq 8.16.1 with std++.

## Model files

| file | models |
|---|---|
| `Base.v` | outcomes (`Val`, `Fail`, `Panic`, `Diverge`), names, node kinds |
| `Arena.v` | the `indextree` arena operations that are used (external crate, documented behaviour) |
| `Links.v` | the sibling and child links of `indextree`, from its published sources |
| `Matching.v` | `cinereus/src/matching.rs`, trait `DiffTree` of `cinereus/src/tree.rs` |
| `Stats.v` | the counters of `matching-stats` (`matching.rs:14-36, 689-698`) and of `position` (`tree.rs:102-115`) |
| `Fuzz.v` | the comparison made by the fuzz targets: `fuzz_targets/common/dom_node.rs`, `patch_trace.rs`, the patch filter of `common/mod.rs`, `apply.rs`, `apply_parity.rs`, `apply_structured.rs`, and the browser's side of it in `browser-wasm/src/lib.rs` |
| `Inputs.v` | which inputs the fuzz targets look at: `fuzz_targets/common/mod.rs` 34-565 (pairs of texts derived from the data, texts left out), on characters; `std::str::from_utf8` is a variable that is assumed to give the characters whose UTF-8 encoding the bytes are |
| `Chaos.v` | the chaos mode of the generator of apply_structured.rs: `common/dom_generator.rs` 15-290, 1572-1581, 2819-2911 (names, values, texts, nodes, pages); the draws of the crate arbitrary are variables, of which the theorems assume that `int_in_range` always gives a number of the range (as version 1 of the crate does); the extended mode is not modelled |
| `Names.v` | `is_valid_attr_name`, `is_valid_tag_name` (`common/mod.rs` 568-591) on lists of Unicode scalar values; Fuzz.v has them as variables on strings, and the examples of C85 put the two together for ASCII names only. The DOM's own rules for names (in PropNames.v) are from the XML and DOM standards, not from the repository |
| `Parity.v` | no code: which patches suit a page, for C79 |
| `OwnTests.v` | the project's own tests, run on the model (validation, no theorem; see below) |
| `Chawathe.v` | `cinereus/src/chawathe.rs` (`generate_edit_script`) |
| `Dom.v` | `hotmeal/src/dom.rs`: document, serialization, patch application; patch types of `diff.rs` |
| `DomApi.v` | the manipulation API of `Document` (`dom.rs:49-323`) |
| `HtmlDiff.v` | `hotmeal/src/diff.rs`: attribute diff, diffable trees, shadow tree, conversion to patches, `diff` |
| `Server.v` | `hotmeal-server/src/lib.rs`: the per-route cache, `diff_route`, `inject_into_head` |
| `Sink.v` | the tree-building callbacks of `hotmeal/src/dom.rs` (`ArenaSink`), string checks before parsing |
| `Page.v` | `diff_html`: parse two texts, then `diff` |
| `Browser.v` | the patch applier of `hotmeal-wasm/src/lib.rs`, and the DOM operations it calls (DOM standard) |
| `Wire.v` | postcard encoding and decoding of patches and live-reload events |
| `CinTree.v` | the tree type the diff library offers (`Tree`, `NodeData`, `NoProps` of `cinereus/src/tree.rs`), `diff_trees` of `cinereus/src/lib.rs` |
| `LiveClient.v` | the rest of the wasm client: slot table, mount point, handling of events, reconnection times |
| `WasmApi.v` | the functions of the wasm client that work on the body: with shared slots, postcard, JSON, innerHTML, in-browser diff |
| `Loader.v` | `loader_script` of hotmeal-server |
| `HashModel.v` | the loops that fill the tables of hashes and heights, the lazily filled caches, what the hasher is fed (`diff.rs:507-713, 923-952`, `matching.rs:316-326`) |
| `FloatModel.v` | similarity scores as `f64`, and the bottom-up phase and `diff` with them |
| `Stem.v` | `hotmeal/src/stem.rs`, `tendril_to_stem` (`dom.rs:1142-1159`), `into_owned` of patches (`diff.rs:1912-2020`), UTF-8 |
| `Instances.v` | concrete documents and a collision-free hash, for examples only |

Proof files (each starts with a comment that says what it is for):

| file | about |
|---|---|
| `ArenaProofs`, `ArenaOps`, `WfCheck` | well-formed arenas, effect of each operation, decision procedure |
| `LinkProofs` | links against children lists |
| `ApiProofs` | the DOM manipulation API |
| `TreeProofs`, `DtreeProofs` | subtrees of an arena as finite trees, traversals, fuel, diffable trees |
| `AttrProofs`, `EscProofs`, `SerProofs` | attribute lists, escaping, reading back serialized HTML |
| `MatchProofs`, `HashProofs`, `ScriptProofs` | the matching, hashes, the edit script |
| `DomTree`, `BuildProofs` | documents that hold given content; copying a body into a tree |
| `ApplyProofs`, `FrameProofs` | application of arbitrary patches; what it leaves alone |
| `ShadowProofs`, `SlotProofs` | the shadow tree and its slots |
| `SimProofs`, `Applier`, `ConvProofs`, `RoundProofs`, `AssembleProofs`, `NestProofs` | simulation of the shadow tree by a program that applies patches; C01, C02 |
| `TotalProofs`, `ConvTotal`, `DiffTotal` | `diff` returns on well-formed documents |
| `BridgeProofs`, `OpaqueProofs`, `SelfProofs`, `RestyleProofs` | missing bodies, opaque changes, equal bodies, bodies that differ in attributes |
| `BrowserProofs`, `BrowserFrame`, `BrowserTotal` | the browser applier as an instance of `Applier`; its frame; arbitrary patches |
| `ServerProofs`, `SinkProofs` | the server cache and string functions; the parser sink |
| `ParseProofs` | documents built by the parser sink; C43 |
| `CutProofs`, `KeepProofs` | documents without the content of their opaque elements; C48 |
| `PayloadProofs`, `NumberProofs` | where the content of patches comes from; how large their numbers are |
| `WireProofs` | each decoder reads what its encoder wrote; decoders do not look past their value |
| `MountProofs` | the element patches are applied to keeps its own data; no patch of `diff` is for the root if the new body has no attributes |
| `CinProofs` | trees built by `add_child`; matching of trees with equal content under any configuration |
| `CountProofs` | how many patches a run of the conversion emits, and how much the shadow tree grows |
| `InPlaceSpec`, `InPlaceMatch`, `InPlaceProofs` | edits of two trees of one shape: specification, the matching computed for them, script, conversion, application |
| `GrowSpec`, `GrowMatch`, `GrowProofs`, `GrowScript` | content added and taken away beside edits in place: specification (a plan), the matching computed for it, where its pairs are, how many patches of each kind |
| `BoundProofs` | how many children the nodes of a browser's page can get |
| `SizeProofs` | how much text patches carry |
| `FloatProofs` | quotients of counts as IEEE doubles compare as the fractions do |
| `InstanceProofs` | facts about the concrete documents |
| `ReasonProofs` | why each pair of the matching was added, which pairs cannot be missed |
| `MirrorProofs` | edits in place applied by the browser client: what its nodes show, paths are unique |

`Prop*.v` contain the property theorems, each with `Print Assumptions` and a
concrete example that meets its hypotheses.  `MANIFEST.json` lists which
theorems prove which property.

## Modelling decisions

* A `NodeId` is an index in a list of nodes; nodes are never freed.
* Rust strings are byte strings.  Every character the code looks at is ASCII, and C64
  proves that going by bytes is then the same as going by characters.  A `Stem` is the
  string it stands for, except in `Stem.v`.
* `f64` scores are kept as pairs numerator/denominator and compared by
  cross-multiplication.  `FloatModel.v` has them as IEEE doubles, and C70 proves that
  the patches are the same.
* `HashMap<u32, _>`/`HashMap<NodeId, _>` are association lists with
  last-write-wins lookup; no modelled code iterates over such a map in an order
  that could be observed.
* Loops that follow links take fuel computed from the arena size; running out
  of fuel is the outcome `Diverge`, never a normal value.
* The 64-bit node hash is an abstract type with an abstract combining function
  of kind, text and child hashes.  Theorems that need it assume that no two
  nodes of the two documents collide (same hash, different structure).
* The HTML parser (html5ever) is not modelled.  `OpaqueChanged` application
  takes the parser as a parameter.  `diff_html` is `diff` after parsing.
* The browser DOM is modelled as the same kind of arena.

Not modelled: html5ever, rapidhash, tracing, WebSocket/rpc glue of the live-reload service, CSS selectors.

## Per property

| id | plan |
|---|---|
| C01 | simulate the shadow tree against the document (partial injection of node ids), invariant on placed new nodes; the general statement is refuted by a witness where matched elements swap nesting, so the theorem assumes an order in which both documents nest matched elements the same way |
| C02 | same simulation |
| C03 | invariant of `m_add` steps, induction on every loop |
| C04 | invariant plus the structure-equality meaning of equal hashes |
| C05 | invariant over all three phases; filter conditions of the edit script |
| C06-C09 | characterise the four `flat_map`s of the edit script; order of traversals |
| C10 | identity matching by top-down phase on equal roots |
| C11, C12 | induction on attribute lists |
| C13, C14 | induction on strings, explicit decoder |
| C15 | explicit parser of the output language / unique decomposition |
| C16 | induction on trees related by insertion of empty texts |
| C17, C18 | unfolding / induction on the patch list |
| C19 | well-formedness invariant of arenas preserved by each operation; refutation with a Move into its own subtree |
| C20 | invariant of the conversion loop |
| C21 | frame lemma on arenas |
| C22-C24 | state machine over call histories, compared with a specification that reads the history backwards |
| C25 | string search lemmas |
| C26 | induction on lists |
| C27 | clone lemma for inserted content |
| C28 | induction on trees, stack invariant |
| C29 | counting with injectivity |
| C30 | invariant of the sink |
| C31 | fuel sufficiency of every fuelled function on well-formed arenas |
| C32 | counting over the flat_maps; for patches: a Move below itself costs one patch per child of the node, placeholders created by earlier swaps are never children of a node still to be moved, the gaps that are filled are bounded by the fan-out of the new page |
| C33 | simulation between both appliers |
| C34 | case-folding lemmas |
| C35 | unfolding with matching facts |
| C36, C37 | sink invariant over callback sequences, contract of html5ever stated as hypotheses |
| C38 | string lemmas |
| C39 | frame invariant for the browser DOM |
| C41 | identity matching as in C10; conversion and application by induction on the pair of trees |
| C42 | an empty script pairs the nodes outside opaque content one to one; matches into new opaque content lie below matched parents; converse as in C10 |
| C43 | invariant of the sink under html5ever's contract, composed with C31, C10, C01 |
| C44 | induction on trees; the grammar is deterministic |
| C45 | invariant: well-formed arena, slots point at nodes |
| C46 | representation relation, preserved by each operation |
| C47 | effect of each call from the arena lemmas; building by calls equals cloning |
| C48, C49 | the simulation of C01 carries a map from old nodes to document nodes; application of patches commutes with cutting off the content of opaque elements |
| C50 | compositional: an encoder/decoder pair `reads` back, for each type; a decoder is stable under appended bytes |
| C51 | inversion of the conversion loop, no invariant on the shadow tree; fan-out of the shadow tree grows by at most 4 per emitted patch |
| C52, C55 | lists and arithmetic |
| C53 | C33 for an arbitrary root, C39, and that no patch edits the root itself |
| C54 | invariant of a session: if the server has a page for the route, the mount point shows it |
| C56 | string lemmas: an occurrence of `</script` cannot straddle a double quote |
| C57 | C45 and C39, and that what is outside of the mount point stays outside |
| C58 | invariant of `add_child` against the list of calls; then C03, C06, C07, C32 for the library's own tree type |
| C59 | two cases: the roots are high enough and match as a whole (as C10), or everything is matched by position in pass 1 |
| C60 | one lemma on loops over the post-order that set a node from its children; caches by induction on the queries |
| C61 | the hasher's input is a list of writes; injectivity by cases; refuted for tags |
| C62 | C23, C40, C54 with the parser sink in place of an abstract parser; the server depends on the values of the comparison only |
| C63 | the matching of two trees of one shape is the pairing by position, up to order: top-down pass from the roots (no twins), bottom-up with half of the descendants in common; then the script consists of updates; application keeps an invariant indexed by the edits still to be made |
| C64 | UTF-8 is a prefix code whose continuation bytes start no character; so a piece of text found in the input by its address starts and ends at characters |
| C65 | the matching as a sequence of additions, each justified by what was there before; parents come before children in pass 1, and pass 2 adds only leaves, so what a step sees of a parent is final |
| C66 | C49 through the general applier, instantiated with the browser; C63's patches on a browser's DOM: no node's children or parent change, so paths stay valid and each edit changes one node's data |
| C67 | the matching is shown to be the plan's pairs: unchanged subtrees by hash, similar elements at the same place by their settled children; the counts then follow from the script (one operation per node or pair) and the conversion (one patch per operation) |
| C68 | no step of a patch's application makes a child list longer, except putting a node at a position, and then not beyond that position; positions in patches are positions in the new page, contents are pieces of it; induction over the pages of a session |
| C69 | the operations of the edit script have distinct new nodes (only the root can be paired twice, by the forced pairing), each carries at most the content of its node; converting adds only moves; the HTML of a node is at least as long as its tags, names, values and texts |
| C70 | a rounded quotient is monotone, and strictly so while fractions differ by more than one unit in the last place, which products of counts below 2^52 ensure; then both matchings take the same steps |
| C71 | making the content is copying the tree it stands for, in both branches; induction on the content |
| C72 | the body is found again after each call because nothing outside it changes (C39); then both sides are one run over the list |
| C73 | addressing by an inductive relation, equal to the navigation; then the exact effect of each arena operation, patch by patch |
| C74 | the browser's lookup is the native one with the mount point as slot 0 (C73); then the effect of each DOM call, patch by patch |
| C75 | a one-to-one relation between the nodes of two arenas that respects content, children and parents; every operation of both appliers preserves it, new nodes extend it; equal trees give such a relation (nodes at the same path) |
| C76 | the nodes of two documents of one page are related one to one; the copy of the old page gets the same ids in both; matching, edit script and conversion are related step by step under the renaming of the nodes of the new page, and patches contain no node ids |
| C77 | the matching with its candidate pairs and Dice calls recorded (Stats.v): erasing the record gives the matching; the pairs are a sub-multiset of the pairs of nodes of equal depth, each of which occurs once; a node of the old tree is looked at once in the bottom-up pass and a candidate of its kind once per node; two roots with *n* leaves of distinct hashes attain *n*² + 1 candidates; exactly the pairs tried by kind after top-down get a Dice call (`dice_recorded`) |
| C78 | recorded runs (Fuzz.v) against `apply_patches` on prefixes of the patch list, by induction over the recorder; trees by induction over what a node holds; `parity_target_blind` because two documents without body have the empty diff, `parity_traces_differ` because `init_patch_slots` makes a body (F47); a recorded run exists for lists without Move (C19); browser runs and the comparison in PropTrace.v |
| C79 | the native document with its attributes stored as in a browser (`vw`) is followed by the browser's applier with equal arenas, up to stray texts of `PRemove` on parentless nodes (StepProofs.v, `patch_step`); renaming of nodes by the isomorphisms of IsoProofs.v; `unsuited_refuted` shows each condition of `fitb` needed (F48) |
| C80 | the requirements on an applier (Applier.v) with `tight`: the shadow tree knows every node, so that a place without slot is free (SimProofs.v `sm_tight`); the native applier that first asks whether the patch suits meets them (SuitProofs.v `checked_applier`); then C79; `apply_target_passes` by the applier that first looks (`watched_applier`) and C01 |
| C81 | every patch meant for the body itself comes from the first phase and carries the new attributes (BodyProofs.v `diff_first`); while those are applied no slot is filled, and no other patch changes the data of the body (`native_first`, `native_rest`); the rest of the page by the frame of C03; strings of the pages by C01 and cancellation |
| C82 | the loops of the input filter against splits of the text: brackets by the states of the scanner, custom elements and tags by induction over the rest of the text (a tag contains one `<`, so occurrences do not overlap); numeric references against the number their digits stand for; `find_bytes` from the cuts of UTF-8 texts of C64; tests on characters in PropChars.v |
| C83 | the length of the arena through every branch of `apply_patch`; positions of a diff's patches from C68's `diff_roomy`; the patch with a far position from the frames of `fill_gaps` and `append`, its bytes from the codec of C50 |
| C84 | postconditions of generators, composed along `gbind` and `grepeat`; then induction on nodes |
| C85 | induction over inserted contents for the filter and for the browser's `create_insert_content`; names by their characters |
| C23, C40 | one generic theorem about a server and a client that loads and applies; the two appliers are instances |

## Trusted base

* Coq's kernel and `vm_compute`.
* C70: Rust's `f64` is IEEE 754 binary64, rounding to nearest even, as the standard
  library's `SpecFloat` describes it.
* What `Print Assumptions` prints after each property theorem: all are "Closed
  under the global context".  The library axioms a checker lists for the whole
  development (`Coq.ssr.ssrunder.Under_rel.*`) belong to the module-type parts
  of ssreflect that std++ loads; no theorem here depends on them.
* That the definitions in the model files describe the cited Rust code, and that
  `Arena.v` describes indextree (C46 derives it from the links of `Links.v`, which
  are then what is trusted), `Browser.v` the DOM methods called by the wasm
  client.
* Things left open as variables, over which the theorems quantify: the node hash
  (`heqb`, `hcomb`, `h0`), the fragment parser (`parse`, `parse_inner`), the
  parser's callback sequences (`Sink`), `diff_html` in the server's cache
  theorems, the page parser (`parse_page`) in C23/C40, the rules on valid names
  (`valid_elem`, `valid_attr`) and the template parser of the browser.
* C43, C62: html5ever is a function from texts to callback lists, assumed to keep the
  contract `all_well_behaved` (stated in `PropParse.v`).
* C50: facet-postcard follows the postcard wire format for the types of `diff.rs`
  (`Wire.v` states it: varints, lengths in front, variants by position, transparent
  newtypes as their content, `Stem` as a string).
* C53/C54: `document.querySelector` is a function of the document; for selectors other
  than `body` it is assumed to find the same element as long as only the content below
  that element changes (`local_selector`; proved for `#id`).
* C61: `LocalName` writes one `u32` into the hasher; the witness for F36 uses the value that
  string_cache 0.9 computes for names kept in the atom (not in the repository; stated in
  `HashModel.v` from that crate's sources as published).
* C72: facet-json reads what it wrote (hypothesis of `browser_json_cycle`); `innerHTML`
  set on the body replaces its children by what the browser's parser returns, and read
  is the serialization of C15.
* C64: memory is a function from addresses to bytes, `&str` an address and a length;
  lifetimes are not modelled.  `str::chars` yields the characters whose encoding the
  string is.
* C82: `std::str::from_utf8` gives the characters whose encoding the bytes are.
* C84: `int_in_range` of the crate arbitrary always gives a number of the range, `choose` and `ratio` draw by it.
* C23/C40/C54 assume the client parses the page it loads as the server does.

Modelled: everything that `diff`, `diff_html`, `apply_patches`,
`to_html`/`to_body_html`, the DOM API, `ArenaSink`, `LiveReloadServer`, `inject_into_head`,
`loader_script`, the wasm client and the encoding of patches and events execute.  Not modelled: html5ever, rapidhash,
tracing and profiling output (except the counters of cinereus' `matching-stats` and of the sibling scans, which Stats.v models),
WebSocket/rpc glue (in C54: events arrive in order while connected, and not otherwise) and logging of the wasm client, `static/`, the bench crate,
the extended mode of the generator of apply_structured.rs and the transport of the fuzz crate (its comparison, its input filter and its chaos mode are modelled, Fuzz.v, Inputs.v and Chaos.v).

## Findings

Behaviour of the code that contradicts its documentation or what a caller would
expect.  With a theorem name: proved of the model by a concrete witness.

Diff and native apply:

* **F1** Attributes of `<body>`: the tree built for the old document has no
  attributes at its root, so removed body attributes stay, and every diff with
  body attributes repeats them all (`diff_self_body_attributes_refuted`,
  `diff_same_content`).  In the domain of C01 this is all that goes wrong outside the content of the
  body: the attributes stay exactly if the new body has none (`diff_page`).
* **F2** `OpaqueChanged` carries the path in the old document but is applied
  after all other patches; it can replace the content of another element
  (`opaque_path_stale_refuted`).
* **F3** Attributes do not enter the hash: a change of an attribute inside an
  opaque element is never sent (`opaque_attribute_change_lost_refuted`).
* **F4** Content of an opaque element of the new document can be matched with
  ordinary old nodes (`new_opaque_content_matched_refuted`).
* **F5** Swapped nesting (a matched node moved below its own descendant) loses a
  subtree (`diff_roundtrip_unconditional_refuted`); **F19** or makes the applier
  panic (`diff_patches_panic_refuted`).
* **F6** `InsertElement` loses the namespace of inserted SVG/MathML elements
  (in C01 the result equals the new body "up to namespaces").
* **F7** Attribute lists with duplicate names are not compared correctly
  (`duplicate_attrs_refuted`, `diff_self_duplicate_attributes_refuted`).
* **F28** When the new page takes the opaque mark off an element, what client-side
  code has drawn into it stays in the page, behind the new content
  (`opaque_content_kept_without_agreement_refuted`).
* **F29** A name with an empty prefix (`Some("")`) loses the prefix on the wire;
  `UpdateProps` looks at it, so the browser does something else with the bytes than
  with the patches themselves (`blob_effect_empty_prefix_refuted`).  The parser
  never makes such names.
* **F10** A hand-made Move of a node below itself makes the document cyclic or
  panics (`move_makes_cycle_refuted`, `move_panics_refuted`).
* **F11** Comments and raw text are serialized unescaped and children of void
  elements are dropped, so different trees serialize alike
  (`serialization_ambiguous_refuted`).
* **F14** A `body` element inside the body is force-matched with the root and
  breaks the round trip (`forced_body_match_refuted`,
  `nested_body_roundtrip_refuted`).
* **F15** `Remove [0]` removes the body element itself (`remove_body_refuted`,
  `browser_remove_root_refuted`).
* **F20** A Remove can address a slot that was never created
  (`slots_before_use_refuted`).
* **F34** The library never inserts a new root: if the roots are not matched (different
  kinds, or the new root has no children left while the old one has some) the edit
  script deletes the old tree and does not build the new one
  (`root_never_inserted_refuted`, `emptied_root_refuted`).  `diff` avoids it by forcing
  the match of the two bodies.
* **F35** A text that is gone is not an edit: if the new node has no text (`None`) the
  matched old node keeps its text, the script can be empty although the trees differ
  (`text_removed_refuted`).  Not reachable from `diff`, where texts are a kind of
  their own.
* **F36** The hash of a page depends on tag names only through a 32-bit hash of the name.
  For unknown short names it is an exclusive or of the two halves of the name's bytes, so
  that different custom tags collide systematically: `<x-a>` and `<x-ap>` are taken
  for equal and nothing is sent, even if the 64-bit hasher itself lost nothing
  (`tag_hash_refuted`).  Names of at most three bytes do not (`short_tags_distinct`); known names and names of eight bytes and more collide only as their own hashes do (`other_tags`).
* **F37** An opaque element pairs with any element of the same tag, whatever their content
  (matching.rs, top-down pass: "either is opaque").  If an ordinary element comes after an
  opaque one of the same tag and a text inside it is edited, the two elements are swapped
  and the result is wrong: the opaque content ends up in the ordinary element, whose own
  content is lost (`edits_in_place_opaque_refuted`).
* **F38** The attributes of the old body are not part of the tree that is compared, those
  of the new body are.  If the new body has attributes the two roots count as unlike, so
  an edited text replaces its element although both bodies have the same attributes
  (`texts_in_place_body_attrs_refuted`).
* **F39** A paragraph that becomes equal to its neighbour is not edited: four patches
  rebuild it (`edits_in_place_twins_refuted`).
* **F40** The fallback that pairs the two roots (matching.rs:545-556) asks that the new
  root has no parent.  The body in the document has one, so the fallback is never taken
  by `diff`.  If fewer than half of the nodes stay unchanged, an edited text replaces its
  element (`texts_in_place_short_refuted`).
* **F41** `tendril_to_stem` slices the input at the address of the tendril without
  looking at its length.  An empty tendril whose address is inside a character would
  panic (`stem_of_empty_tendril_refuted`); the tendril crate keeps short strings inline,
  so html5ever does not produce one.
* **F42** After an insertion every later sibling is moved by a patch of its own
  (`insertion_moves_siblings`; `clear_change_patches` shows that this is so in general).
  Equal texts, such as the line breaks between elements, are matched from the end, so
  line breaks that kept their places can be moved as well (`twins_unchanged_refuted`).
  The resulting page is right in both cases.
* **F43** A native document that is patched over and over collects empty texts: a removal
  leaves one in its place, a later insertion does not replace it but shifts it
  (dom.rs `insert_at_position`).  When the last item of a list comes and goes, each round
  adds a node to the list (`native_children_bounded_refuted`, `native_rounds_example`).
  The HTML does not show it.  A browser replaces the node at the position, so there it
  does not happen (C68).
* **F44** Elements that become opaque, one inside the other, are sent several times: the
  children of an element that has become opaque are still paired by position (matching.rs:463-479,
  `new_opaque_content_matched_refuted`), and a paired inner element that is opaque gets its own
  `OpaqueChanged` although the outer one replaces it anyway: with nesting depth k the innermost
  content is sent k times (`payload_nested_opaque_refuted`). Harmless but wasteful.
* With a similarity threshold above 1 a tree differs from itself
  (`threshold_above_one_refuted`).
* With colliding hashes nodes of different kinds are matched
  (`colliding_hashes_refuted`).
* The `replace_with_placeholder` branch of `move_to_position` is dead code when
  called from `diff` (the ancestor case is handled before).
* A failed Move leaves the document modified (the node is already detached).

DOM API:

* **F26** `insert_before`/`insert_after` accept a node above the sibling's parent
  and make the document cyclic (`api_cycle_refuted`).
* **F27** `append_child` accepts a text node as parent; the child is never
  serialized (`api_text_parent_refuted`).
* Beside a parentless node, insertion links siblings that have no parent
  (`orphan_siblings_refuted`).

Parsing:

* **F8** After a leading comment the document root is the comment, so `body` is
  not found (`leading_comment_hides_body_refuted`).
* **F16** Removing a node through the sink leaves adjacent texts
  (`remove_makes_adjacent_text_refuted`).
* **F17** `has_html_structure` accepts `<bodyguard` (`structure_detection_refuted`).
* **F24** Texts in `iframe`, `noembed`, `noframes`, `plaintext` and `xmp` are
  escaped although parsers read them without entities
  (`plain_text_elements_refuted`).  Likewise the newline after `<pre>` and
  `<textarea>` that a parser drops is not written back (read, not proved).

Server and live reload:

* **F9** `inject_into_head` takes `<header` for `<head`
  (`inject_into_header_refuted`).
* **F12** `cache_html` between two diffs makes connected clients diverge
  (`cache_html_desync_refuted`).
* **F18** `diff_route` silently caches a page that differs in the head only
  (`head_change_unnoticed_refuted`).
* **F30** `loader_script` does not escape its arguments: a selector such as `[id="app"]`
  breaks the script (`loader_quote_refuted`), `</script>` in a URL ends it
  (`loader_end_refuted`).

Browser client:

* **F13** At an occupied position without a slot the browser replaces where the
  native applier shifts; diff never emits such a patch in the domain of C33
  (`browser_insert_replaces_refuted`).
* **F21** `UpdateProps` first removes all attributes and then fails on a name
  that `setAttribute` rejects, such as `@click`
  (`browser_update_rejected_refuted`).
* **F22** `createElement` lower-cases SVG names (`browser_lower_case_refuted`).
  Three of the project's own browser tests (`svg_add_element`, `svg_remove_element`, `svg_text_change`) run into
  it: the page then has `viewbox` on an inert HTML element. They pass because `wasm.spec.ts` parses both pages
  again before it compares them (`own_tests_browser_case` in OwnTests.v).
* **F23** An empty attribute prefix gives a name starting with a colon
  (`browser_empty_prefix_refuted`).
* **F25** A Remove with an empty path panics in the browser client
  (`browser_empty_remove_refuted`).
* **F31** A reconnected browser is not told what it missed; the next patches are applied to
  the page it has, often without error (`missed_event_refuted`).
* **F32** Attributes of the new body replace those of the mount point, including the `id`
  by which it is found; later events fail and are only logged
  (`mount_attributes_refuted`).
* **F33** The server compares whole bodies; a mount point inside the compared body gets
  patches meant for the body, without error (`mount_inside_body_refuted`).
* **F45** An element that the DOM API rejects is made from markup.  There void elements get
  an end tag (`<br></br>` is read as two line breaks) and scripts get escapes
  (`fallback_void_refuted`, `fallback_script_refuted`).  Content with children is sent for
  new opaque elements, such as a widget with an `@click` attribute
  (`fallback_update_refuted`), and if the old page has no body.
* **F46** `SetText` of an element is an error natively; the browser replaces the element's
  children (`set_text_element_refuted`).  The diff makes no such patch.
* **F47** The fuzz target `apply_parity` parses both inputs with `parse_body_fragment`, which makes
  documents without a `body`; their diff is empty (`no_bodies`, C27), so the target never applies
  a patch and cannot find a difference between the two appliers (`parity_target_blind`).  With patches it
  could only fail: the native tree would be that of the `body` made by `init_patch_slots`, the
  browser's is wrapped in `html` (`parity_traces_differ`).  The trees of the targets leave out namespaces, the case
  of tags and the order of attributes (`trees_equal_refuted`).
* **F48** The two appliers agree only on patches that suit the page (Parity.v).  Patches that the browser
  applies with another result than the native applier, or that only the browser applies
  (`unsuited_refuted`): insertions and moves without slot to an occupied place (F13), attribute names with
  upper case letters, two attributes with one qualified name, `SetText` and text changes of
  `UpdateProps` on elements, `Remove` of a slot that is empty or whose node is in the page again,
  displacing to slot 0, `OpaqueChanged`.
* **F49** The fuzz target apply_structured.rs compares whole pages, but `diff` looks at the bodies only: it fails
  on pages whose heads differ (`structured_target_head_refuted`) and on those where only the old body has
  attributes (`structured_target_verdict`, F1).  Its extended mode writes no body
  attributes; its chaos mode can, but only if a random name happens to be `body` (`chaos_example`).  So the target
  hardly ever sees F1.
* **F50** The input filter of the fuzz targets (`is_valid_for_browser_parity`) lets texts through that it is meant
  to leave out: it compares the first `<title` with the first `<svg`, looks behind the first `<math` only if there
  is one (and not behind `<svg` then), and takes the first `>` for the end of a tag (`filter_gaps_refuted`).  It takes
  `&#xab` for a newline (`hex_charref_refuted`).  It leaves out every text with a `<` that is not closed before the
  next `<` (`admitted_brackets`), so comments with tags in them and texts like `1 < 2` are never tried.  The check for
  `<!doctype` never applies: the one for `<!d` comes before it.
* **F51** A list of patches of eleven bytes can fill the memory of whoever applies it: an insertion at position n
  makes n empty texts first if the parent has fewer children, and no limit applies to n below 2^32
  (`far_patch_fills`, `memory_by_bytes_refuted`; dom.rs:759-768, hotmeal-wasm/src/lib.rs:703-712).  Patches of a diff
  never name a position beyond the children of the new page (`update_memory`), so this takes patches from elsewhere.
  A native document keeps every node it ever had: `apply_patch` only unlinks nodes (`native_memory`).
* **F52** The chaos mode of the structured fuzz target never makes the characters its text generator lists after the
  digits: spaces, line breaks, `<`, `>`, `&`, quotes and letters beyond ASCII.  The arm `52..=61 if
  u.int_in_range(52..=61).is_ok()` (dom_generator.rs:157) comes before theirs and its guard always holds
  (`chaos_texts`).  So its pages are printable ASCII without a single character reference (`chaos_pages_plain`), its
  escaping of texts, values and comments changes nothing (`chaos_unescaped`), and its elements are never opaque
  (`chaos_never_opaque`).  (The extended mode's texts do have these characters.)
* **F53** The fuzz targets' filter of names is not the DOM's rule (`accepted_names_refuted`).  `is_valid_attr_name`
  (common/mod.rs:568-579) tests only the first character for white space, so it accepts `a b`, which no `setAttribute`
  accepts; `is_valid_tag_name` tests all.  Both accept names that begin with a digit, such as `1a` of `<p 1a>`, which
  DOMs that ask for an XML Name refuse when a patch sets the attribute; there the target reports a difference that is not the
  applier's.  For the DOM standard of 2025 the accepted names that an HTML parser can make are fine
  (`accepted_names_dom`).  The filter also looks at local names only, while the browser is given prefix and local name;
  so `accepted_without_parser` asks for names without prefixes.
* **F54** `compare_traces` compares the texts of failed steps but not their trees (patch_trace.rs:291-334,
  `failed_trees_unseen`).  Native and browser appliers that fail at the same patch with the same text, and leave
  different pages behind, pass.
* On `OpaqueChanged` the browser fires an event and leaves the content to the
  page, the native applier replaces the content.

## The project's own tests on the model

`OwnTests.v` runs the tests that come with the project on the model, by `vm_compute`:

* 123 pairs of pages: `hotmeal/tests/roundtrip-cases`, the table of `wasm.spec.ts`, the unit tests of `diff.rs` and
  `test_debug_fuzzer_bug.rs`. All pass with the native applier, the 57 of `wasm.spec.ts` also with the browser's.
* The tests that look at the patches (`diff.rs`), at the result of given patches (`apply_tests.rs`), at written HTML
  (`dom.rs`), at matchings and scripts (`cinereus`), at the server and its events (`hotmeal-server`).

html5ever is not modelled, so the tests that only look at its trees (foster parenting, malformed tags) are left out,
and the pages of the others were turned into trees by hand or by a script outside of this repository.
A wrong model fails here even where no theorem speaks about the difference.

## Seeded bugs

`seeded/LOG.jsonl`: one line per wrong program tried: the definition edited, the
edit, the claim it breaks, the theorems (or lemmas on which they rest) that no
longer prove, and theorems tightened because of it.
`failed` lists only errors that the prover located in a file.  For most edits the whole development was rebuilt with
`make -k` (at most 25 minutes; `files_not_built` then also has files not reached by the end).  For definitions near
the leaves only the files that use them were rebuilt, up to the first that failed, so there both lists are lower
bounds.  An empty `failed` is an edit that no theorem noticed at the time.
