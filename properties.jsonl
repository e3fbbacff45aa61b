{"id": "C01", "title": "Diff then apply reproduces the new body", "statement": "If diff(old, new) returns patches, applying them to a copy of old succeeds and the resulting document's body HTML equals the body HTML of new.", "quantifier": "for all pairs of documents with a body, duplicate-free attribute names, no opaque elements, no body element inside the body, hashes that do not collide, and an edit script in which no Move puts a node below itself; the statement without the last condition fails (matched elements swap nesting), which is exhibited", "why_tests_cant": "the path/slot bookkeeping has to be right for every combination of inserts, moves and deletes; unit tests and fuzzing sample finitely many trees, and a failing pair is rare (about 1 in 10^5 random mutations)", "anchors": ["hotmeal/src/diff.rs:diff", "hotmeal/src/diff.rs:convert_ops_with_shadow", "hotmeal/src/dom.rs:Document::apply_patches", "hotmeal/src/dom.rs:Document::to_body_html"]}
{"id": "C02", "title": "Generated patches always apply", "statement": "Applying the patches returned by diff(old, new) to old never returns an error, never panics and never leaves the document cyclic.", "quantifier": "for all pairs of documents in the domain of C01", "why_tests_cant": "an out-of-range path or missing slot shows up only for particular interleavings of displaced nodes; every tree pair must be covered", "anchors": ["hotmeal/src/diff.rs:ShadowTree::compute_path", "hotmeal/src/dom.rs:Document::navigate_slot_path", "hotmeal/src/dom.rs:Document::apply_patch"]}
{"id": "C03", "title": "Matching is a partial bijection", "statement": "The matching computed between two trees pairs every old node with at most one new node and vice versa, and the forward, backward and pair-list views agree.", "quantifier": "for all pairs of trees, all hash values (collisions included), all similarity functions and thresholds", "why_tests_cant": "the matching is built by three phases that each insert pairs; that no order of phases ever inserts a node twice is an invariant over all runs", "anchors": ["cinereus/src/matching.rs:compute_matching", "cinereus/src/matching.rs:Matching::add", "cinereus/src/matching.rs:bottom_up_phase", "cinereus/src/matching.rs:top_down_phase"]}
{"id": "C04", "title": "Matched nodes have the same kind", "statement": "Two nodes are matched only if they have the same kind (same tag and namespace, or both text, or both comments).", "quantifier": "for all pairs of trees whose hashes do not collide", "why_tests_cant": "subtrees matched by hash are walked pairwise without comparing kinds; safety rests on the hash invariant for every depth", "anchors": ["cinereus/src/matching.rs:match_subtrees", "cinereus/src/matching.rs:bottom_up_phase"]}
{"id": "C05", "title": "Opaque content is left alone by matching", "statement": "No strict descendant of an opaque old element is ever matched, and the edit script contains no operation on a strict descendant of an opaque element of the old tree.", "quantifier": "for all pairs of trees and all placements of opaque markers", "why_tests_cant": "opaque regions can be nested and can be reached through several phases; tests fix one layout", "anchors": ["cinereus/src/matching.rs:match_subtrees", "cinereus/src/matching.rs:bottom_up_phase", "cinereus/src/chawathe.rs:generate_edit_script"]}
{"id": "C06", "title": "Every unmatched new node is inserted exactly once, in the right place", "statement": "The edit script contains exactly one Insert for each unmatched non-root new node outside opaque content, none for any other node, and each Insert carries that node's parent, sibling position and kind in the new tree.", "quantifier": "for all pairs of trees and every partial bijection between them", "why_tests_cant": "a missing or duplicated insertion depends on the whole traversal; must hold for every tree shape", "anchors": ["cinereus/src/chawathe.rs:generate_edit_script"]}
{"id": "C07", "title": "Every unmatched old node is deleted exactly once, children first", "statement": "The edit script contains exactly one Delete for each unmatched old node outside opaque content and for no other node, and a node's Delete comes after those of all its unmatched descendants.", "quantifier": "for all pairs of trees and every matching", "why_tests_cant": "ordering claim over all traversals of all trees", "anchors": ["cinereus/src/chawathe.rs:generate_edit_script", "cinereus/src/tree.rs:Tree::post_order"]}
{"id": "C08", "title": "Moves are emitted exactly when a matched node changes parent or position", "statement": "For every matched pair of non-root nodes outside opaque content, the edit script contains one Move to the partner's parent and position if the parents are not matched to each other or the positions differ, and none otherwise.", "quantifier": "for all pairs of trees and every partial bijection", "why_tests_cant": "completeness and minimality claim over every pair of every matching", "anchors": ["cinereus/src/chawathe.rs:generate_edit_script"]}
{"id": "C09", "title": "Parents are inserted before their children", "statement": "In the edit script an Insert of a node comes after the Insert of its parent if the parent is inserted too, and all Inserts come before all Moves, and all Moves before all Deletes.", "quantifier": "for all pairs of trees and every matching", "why_tests_cant": "ordering property of every produced list", "anchors": ["cinereus/src/chawathe.rs:generate_edit_script"]}
{"id": "C10", "title": "Diffing a document with itself yields nothing", "statement": "diff(d, d) is the empty patch list.", "quantifier": "for every document whose body element has no attributes and whose elements have duplicate-free attribute names (the other documents are shown to be counterexamples)", "why_tests_cant": "requires that the matching of a tree with itself is the identity for every tree, including trees with many equal subtrees", "anchors": ["hotmeal/src/diff.rs:diff", "cinereus/src/matching.rs:compute_matching", "cinereus/src/chawathe.rs:generate_edit_script"]}
{"id": "C11", "title": "Attribute updates reproduce exactly the new attributes", "statement": "Applying the attribute changes computed from the attribute lists of an old and a new element to the old element yields the new element's attribute list, in the same order.", "quantifier": "for all pairs of attribute lists, duplicates in the old list included", "why_tests_cant": "the update encodes unchanged values as absent; every combination of added, removed, changed and reordered attributes must work", "anchors": ["hotmeal/src/diff.rs:HtmlProps::diff", "hotmeal/src/dom.rs:Document::apply_patch (UpdateProps)"]}
{"id": "C12", "title": "No attribute update means equal attributes", "statement": "If no attribute update is emitted for a matched pair, the two attribute lists are equal, including order.", "quantifier": "for all pairs of duplicate-free attribute lists", "why_tests_cant": "reordering detection uses a forced difference; absence of an update must imply equality for all lists", "anchors": ["hotmeal/src/diff.rs:HtmlProps::diff", "cinereus/src/chawathe.rs:generate_edit_script"]}
{"id": "C13", "title": "Escaped text never opens markup and is reversible", "statement": "The serialization of a text node contains no less-than sign, every ampersand in it starts one of the emitted entities, and decoding the entities gives back the text.", "quantifier": "for all strings", "why_tests_cant": "injection safety is a statement about every string", "anchors": ["hotmeal/src/dom.rs:Document::serialize_node"]}
{"id": "C14", "title": "Escaped attribute values never leave the quotes and are reversible", "statement": "A serialized attribute value contains no double quote, less-than or greater-than sign, and decoding its entities gives back the value.", "quantifier": "for all strings", "why_tests_cant": "injection safety is a statement about every string", "anchors": ["hotmeal/src/dom.rs:Document::serialize_element"]}
{"id": "C15", "title": "Serialization determines the tree", "statement": "Two bodies made of readable trees with equal body HTML consist of equal trees up to namespaces. Readable: no empty and no adjacent texts, comments that do not contain their end mark, void elements without children, raw-text elements with at most one text not containing their end tag, tag and attribute names that a tokenizer can delimit.", "quantifier": "for all pairs of such trees; the other shapes are exhibited as ambiguous", "why_tests_cant": "an ambiguity of the output language is a statement about all pairs of trees", "anchors": ["hotmeal/src/dom.rs:Document::serialize_node", "hotmeal/src/dom.rs:Document::serialize_element"]}
{"id": "C16", "title": "Empty text nodes are invisible", "statement": "Inserting or removing empty text nodes anywhere in a tree does not change any serialization.", "quantifier": "for all trees and all sets of positions", "why_tests_cant": "patch application relies on it after every removal; positions are unbounded", "anchors": ["hotmeal/src/dom.rs:Document::serialize_node", "hotmeal/src/dom.rs:Document::apply_patch (Remove, Move)"]}
{"id": "C17", "title": "Applying no patches changes nothing", "statement": "apply_patches with an empty list leaves the document untouched (even without a body) and succeeds.", "quantifier": "for all documents", "why_tests_cant": "holds for every document state", "anchors": ["hotmeal/src/dom.rs:Document::apply_patches"]}
{"id": "C18", "title": "Patch application is incremental", "statement": "Applying a list of patches one at a time through a slot map obtained from init_patch_slots gives the same document and result as applying them in one call, and splitting a list at any point and continuing with the same slots is the same as applying it whole; the first error stops application.", "quantifier": "for all documents, all patch lists (not only generated ones) and all split points", "why_tests_cant": "streaming clients apply prefixes; all split points of all lists must agree", "anchors": ["hotmeal/src/dom.rs:Document::apply_patches", "hotmeal/src/dom.rs:Document::init_patch_slots", "hotmeal/src/dom.rs:Document::apply_patch_with_slots"]}
{"id": "C19", "title": "Any patch list without Move keeps the document a tree", "statement": "Starting from a well-formed document, applying any patch list that contains no Move (even hand-made, even if some patch fails) leaves a well-formed tree: parent and child links agree, no node has two parents, no cycles; it never panics. With Move patches this fails, which is exhibited.", "quantifier": "for all well-formed documents and all patch lists", "why_tests_cant": "untrusted patch lists form an infinite adversarial input space", "anchors": ["hotmeal/src/dom.rs:Document::apply_patch", "hotmeal/src/dom.rs:Document::insert_at"]}
{"id": "C20", "title": "Slots are created before use and numbered without gaps", "statement": "In the patches returned by diff, every slot number used in a path is 0 or has been introduced by the detach_to_slot of an earlier patch, and slot numbers are introduced in the order 1, 2, 3, ... each once.", "quantifier": "for all pairs of well-formed documents, all patches but Remove; Remove included in the domain of C01 (outside it a Remove can address a slot that does not exist, which is exhibited)", "why_tests_cant": "ordering property over every produced patch list", "anchors": ["hotmeal/src/diff.rs:ShadowTree::create_slot", "hotmeal/src/diff.rs:convert_ops_with_shadow"]}
{"id": "C21", "title": "Patches are transparent to everything outside the body", "statement": "Applying any patch list to a document with a body, even if it fails half-way, leaves the doctype, the html element, the head and every other node outside the body unchanged, and the body stays the same element; only a patch that removes or moves the body element itself is excluded.", "quantifier": "for all well-formed documents with a body and all patch lists (Moves included) none of which is Remove or Move of the path [0]", "why_tests_cant": "frame property over all states", "anchors": ["hotmeal/src/dom.rs:Document::apply_patches"]}
{"id": "C22", "title": "Server cache holds the last HTML per route", "statement": "After any sequence of live-reload server calls, the cached HTML of a route is the HTML most recently passed for this route by a caching or diffing call since the last removal or clear, and calls for one route never affect another route.", "quantifier": "for all call histories", "why_tests_cant": "history property; tests run fixed short histories", "anchors": ["hotmeal-server/src/lib.rs:LiveReloadServer::cache_html", "hotmeal-server/src/lib.rs:LiveReloadServer::diff_route", "hotmeal-server/src/lib.rs:LiveReloadServer::remove_route", "hotmeal-server/src/lib.rs:LiveReloadServer::clear"]}
{"id": "C23", "title": "A live client converges to the served page", "statement": "A client loads the page the server has cached for its route and then handles every event diff_route and diff_route_with_head emit for that route (reloading on Reload and HeadChanged, applying on Patches to the document left by all earlier patches). After every call it has met no error, and its body HTML is that of the HTML last given for the route. The client's document is not the freshly parsed page (earlier patches leave empty text nodes behind). The statement fails if cache_html replaces the page between two diffs, and it does not extend to the head of the page.", "quantifier": "for all histories of calls on the server (any routes, removals and clearing included) in which cache_html is not called for the route, for all pages any two of which are in the domain of C01", "why_tests_cant": "invariant over unbounded histories of edits", "anchors": ["hotmeal-server/src/lib.rs:LiveReloadServer::diff_route", "hotmeal-server/src/lib.rs:LiveReloadServer::diff_route_with_head", "hotmeal-wasm/src/lib.rs:handle_live_reload_event"]}
{"id": "C24", "title": "Head changes are reported exactly when they differ", "statement": "diff_route_with_head reports a head change if and only if the given head injections differ from the ones given last for the same route (or none were given and the new ones are non-empty).", "quantifier": "for all call histories", "why_tests_cant": "history property", "anchors": ["hotmeal-server/src/lib.rs:LiveReloadServer::cache_head_injections", "hotmeal-server/src/lib.rs:LiveReloadServer::diff_route_with_head"]}
{"id": "C25", "title": "Script injection only adds the snippet, once", "statement": "inject_into_head returns the input with the snippet inserted at exactly one place; deleting it there gives the input back. If the input has a head start tag, nothing before the end of it changes.", "quantifier": "for all HTML strings and snippets", "why_tests_cant": "statement about all strings", "anchors": ["hotmeal-server/src/lib.rs:inject_into_head"]}
{"id": "C26", "title": "Attribute setters behave like a map", "statement": "After set_attr the attribute reads back as the new value and all other attributes and their order are unchanged; after remove_attr it is absent and the others are unchanged; set_attr never introduces a duplicate name.", "quantifier": "for all attribute lists, names and values", "why_tests_cant": "algebraic laws over all lists", "anchors": ["hotmeal/src/dom.rs:Document::set_attr", "hotmeal/src/dom.rs:Document::remove_attr"]}
{"id": "C27", "title": "Documents without body are bridged", "statement": "If old has no body and new has one, applying diff(old, new) to old gives new's body HTML; if old has a body and new has none, applying diff(old, new) leaves an empty body HTML; if neither has a body the diff is empty.", "quantifier": "for all documents: well-formed old and well-formed (texts and comments without children) new", "why_tests_cant": "recursion over arbitrary subtrees", "anchors": ["hotmeal/src/diff.rs:diff", "hotmeal/src/diff.rs:create_insert_patch", "hotmeal/src/diff.rs:create_insert_content"]}
{"id": "C28", "title": "Tree traversals enumerate every node exactly once in order", "statement": "The post-order traversal visits each node of the subtree exactly once, every child before its parent; the pre-order traversal visits each exactly once, every parent before its children.", "quantifier": "for all trees", "why_tests_cant": "explicit-stack iterator over arbitrarily shaped trees", "anchors": ["hotmeal/src/diff.rs:PostOrderIterator", "cinereus/src/tree.rs:PostOrderIterator", "cinereus/src/tree.rs:DiffTree"]}
{"id": "C29", "title": "Similarity scores stay between 0 and 1", "statement": "The Dice coefficient of two subtrees and the attribute similarity are between 0 and 1. The Dice coefficient is 1 exactly when the matching pairs the nodes of the two subtrees off completely and 0 exactly when it pairs none; attribute similarity is 1 exactly when the sets of names are equal and 0 exactly when they are disjoint.", "quantifier": "for all trees, partial bijections and attribute lists", "why_tests_cant": "needs injectivity of the matching for arbitrary trees", "anchors": ["cinereus/src/matching.rs:dice_coefficient", "hotmeal/src/diff.rs:HtmlProps::similarity"]}
{"id": "C30", "title": "The parser sink never builds adjacent or empty-mergeable text nodes", "statement": "Feeding any sequence of text and element insertions to the tree sink through append and append-before-sibling never creates two adjacent text children, and the concatenated text is the concatenation of the inserted text.", "quantifier": "for all callback sequences of those kinds", "why_tests_cant": "the callback sequence is driven by arbitrary input HTML", "anchors": ["hotmeal/src/dom.rs:ArenaSink::append", "hotmeal/src/dom.rs:ArenaSink::append_before_sibling"]}
{"id": "C31", "title": "The diff terminates and never panics", "statement": "diff returns a result (it neither loops nor panics) on every pair of well-formed documents.", "quantifier": "for all pairs of well-formed documents", "why_tests_cant": "termination of the candidate loop and the tree walks for every input", "anchors": ["hotmeal/src/diff.rs:diff", "cinereus/src/matching.rs:top_down_phase"]}
{"id": "C32", "title": "Patch lists are bounded by document size", "statement": "The number of edit operations is at most three times the number of matched pairs plus the number of unmatched nodes of both documents; without nesting swaps the same bound holds for the number of patches. With nesting swaps, colliding hashes and opaque elements, for any two proper documents of n and k nodes, there are at most (4n+k)(9n+6k+3)+n+k patches; a witness has more patches than operations.", "quantifier": "for all pairs of documents", "why_tests_cant": "size bound over all inputs", "anchors": ["cinereus/src/chawathe.rs:generate_edit_script", "hotmeal/src/diff.rs:convert_ops_with_shadow"]}
{"id": "C33", "title": "The browser applier agrees with the native applier", "statement": "On every patch list produced by diff in the domain of C01, the browser (wasm) applier succeeds whenever the element it works on has the content of the old body, and leaves in it the same HTML as the native applier leaves in the body, which is that of the new document. It works on the body or on any other element. The statement fails for names the browser's setAttribute rejects, for names in mixed case and for empty prefixes (each exhibited).", "quantifier": "for all pairs of documents in the domain of C01 whose element and attribute names are lower case, accepted by createElement and setAttribute, distinct within an element and without empty prefixes; for all well-formed browser DOMs around the element; for every rule on valid names", "why_tests_cant": "two implementations must agree on all generated patch sequences; the browser one is only tested end-to-end on samples", "anchors": ["hotmeal-wasm/src/lib.rs:apply_patches_json", "hotmeal-wasm/src/lib.rs:apply_patch", "hotmeal-wasm/src/lib.rs:insert_at_position"]}
{"id": "C34", "title": "Doctype and structure detection ignore case", "statement": "Recognition of a leading doctype and of html/head/body tags gives the same answer for inputs that differ only in ASCII letter case.", "quantifier": "for all strings", "why_tests_cant": "statement about all strings and all case patterns", "anchors": ["hotmeal/src/dom.rs:has_doctype_prefix", "hotmeal/src/dom.rs:has_html_structure"]}
{"id": "C35", "title": "An opaque element's inner change is delivered whole", "statement": "The OpaqueChanged patches of a diff are exactly one for every matched pair whose new element is opaque and whose hashes differ, each carrying the new inner HTML and the path of the element in the old document; applying one replaces the children of the addressed element by the parsed content and changes nothing else.", "quantifier": "for all pairs of well-formed documents and all hash functions; that the path can be out of date when applied, and that attribute changes inside are lost, is exhibited", "why_tests_cant": "depends on matching for every layout of opaque regions", "anchors": ["hotmeal/src/diff.rs:diff"]}
{"id": "C36", "title": "Repeated html/body tags only add missing attributes", "statement": "When the parser merges the attributes of a repeated tag into an existing element, existing attributes keep their value and place, each missing one is added once with the first value given for it, and no attribute name is introduced twice.", "quantifier": "for all attribute lists", "why_tests_cant": "Tests fix a few tags; the claim is about every pair of attribute lists, including repeated names in the added list.", "anchors": ["hotmeal/src/dom.rs:1727-1760"]}
{"id": "C37", "title": "Parser callbacks always build a tree", "statement": "Any sequence of tree-sink callbacks in which nodes handed over for insertion are detached and not above their target completes without panic and leaves a well-formed tree (parent and child links agree, no node twice, no cycle); reparenting moves exactly the children, in order.", "quantifier": "for all callback sequences satisfying the stated contract of html5ever", "why_tests_cant": "html5ever can produce unboundedly many callback sequences; a test sees only those of its inputs.", "anchors": ["hotmeal/src/dom.rs:1313-1337", "hotmeal/src/dom.rs:1420-1522", "hotmeal/src/dom.rs:1525-1710", "hotmeal/src/dom.rs:1762-1773"]}
{"id": "C38", "title": "Input preparation keeps the text", "statement": "The text given to the HTML parser always starts with a doctype and contains the input unchanged; an input that has a doctype is passed as it is; an input without one gets a document whose doctype is absent.", "quantifier": "for all strings and all parser behaviours", "why_tests_cant": "The claim ranges over all strings, including odd white space and letter case before the doctype.", "anchors": ["hotmeal/src/dom.rs:1012-1024", "hotmeal/src/dom.rs:1038-1079", "hotmeal/src/dom.rs:1105-1108"]}
{"id": "C39", "title": "The browser client only touches the element it was given", "statement": "Applying any patch list in the browser, even one that fails half-way, leaves every node outside the mount element unchanged, and the mount element keeps its tag and its place; only Remove of the path [0] is excluded (shown to remove it). Applied to the body, body and head stay the same elements.", "quantifier": "for all well-formed browser DOMs, all mount elements, all patch lists without Remove [0], all rules on valid names and all behaviours of the template parser", "why_tests_cant": "frame property over all states and patch lists, including malformed ones", "anchors": ["hotmeal-wasm/src/lib.rs:apply_patches_with_slots_on_root", "hotmeal-wasm/src/lib.rs:apply_patch", "hotmeal-wasm/src/lib.rs:insert_at_position"]}
{"id": "C40", "title": "A live browser converges to the served page", "statement": "A browser that loads the page the server has cached for its route and then handles every event of that route with the browser applier meets no error, and after every call its body HTML is that of the HTML last given for the route, although its DOM carries the remains of all earlier patches.", "quantifier": "for all histories of calls on the server in which cache_html is not called for the route; for all pages any two of which are in the domain of C33, provided the browser's parser gives the same body nodes as the server's", "why_tests_cant": "invariant over unbounded histories of edits in a browser", "anchors": ["hotmeal-wasm/src/lib.rs:handle_live_reload_event", "hotmeal-wasm/src/lib.rs:apply_patches", "hotmeal-server/src/lib.rs:LiveReloadServer::diff_route"]}
{"id": "C41", "title": "Attribute edits give one update per edited element", "statement": "If the bodies of two documents differ in attributes only (same elements, texts, comments and nesting, same opaque elements with equal content), then diff returns exactly one UpdateProps patch for each element outside opaque content whose attributes differ, in document order, with the path of that element, naming all its new attributes in order and leaving out only values the old element already has. Applying the patches succeeds and gives a document with exactly the new body content, in which nothing but attributes of body nodes changed. The attributes of the body itself are taken from the new body if it has any, otherwise left alone.", "quantifier": "for all pairs of well-formed documents of that kind with distinct attribute names, all node hashes (collisions allowed), all fragment parsers", "why_tests_cant": "exact characterisation of the diff, with the matching forced to the identity, for all trees and attribute lists", "anchors": ["hotmeal/src/diff.rs:diff", "hotmeal/src/diff.rs:HtmlProps::diff", "hotmeal/src/diff.rs:convert_ops_with_shadow", "hotmeal/src/dom.rs:apply_patch", "cinereus/src/matching.rs:compute_matching"]}
{"id": "C42", "title": "An empty diff means the same page", "statement": "diff returns no patches exactly if the new body has no attributes, its namespace is that of the old body, and the contents of the two bodies are equal but for attributes inside opaque elements; without opaque elements, exactly if the contents are equal. So two documents that show different pages never get an empty diff.", "quantifier": "for all pairs of well-formed documents with a body and distinct attribute names, all collision-free node hashes", "why_tests_cant": "completeness of change detection: needs every pair of differing trees, whatever the matching heuristics choose", "anchors": ["hotmeal/src/diff.rs:diff", "hotmeal/src/diff.rs:convert_ops_with_shadow", "cinereus/src/chawathe.rs:generate_edit_script", "cinereus/src/matching.rs:compute_matching"]}
{"id": "C43", "title": "Pages given as text are diffed safely", "statement": "For any two texts, diff_html returns patches without panic or endless loop; for equal texts the list is empty if the body has no attributes; and if both pages have an ordinary body without opaque elements and without nested bodies, and no node is moved below itself, applying the patches to the parsed old page gives the body HTML of the parsed new page and leaves its doctype and head alone. In particular every document the parser's callbacks can build is in the domain on which diff is total, and no element gets a duplicate attribute name.", "quantifier": "for all pairs of strings, all node hashes, and all parsers that keep html5ever's contract towards its tree sink (nodes handed over are detached and not above their target, only elements and the document get children, the document node is never handed over, attributes of a new element have distinct names)", "why_tests_cant": "composes parsing, diffing and patching over all texts and all callback sequences of the external parser", "anchors": ["hotmeal/src/diff.rs:diff_html", "hotmeal/src/dom.rs:parse", "hotmeal/src/dom.rs:ArenaSink", "hotmeal/src/dom.rs:Document::apply_patches"]}
{"id": "C44", "title": "Serialized HTML follows the tag grammar", "statement": "The HTML of a document is its doctype declaration, if it has one, followed by exactly the text a grammar gives for the root: start tags with all attributes in order (prefix and colon, quoted value with the four entities), no end tag exactly for the fourteen void elements, texts with two entities except directly inside script, style and noscript, comments between their marks. The body HTML is the text of the grammar for the content of the body.", "quantifier": "for all well-formed documents; the grammar is given independently of the serializer and determines the text uniquely", "why_tests_cant": "exact output for every tree, tag and string", "anchors": ["hotmeal/src/dom.rs:Document::to_html", "hotmeal/src/dom.rs:Document::to_body_html", "hotmeal/src/dom.rs:Document::serialize_node", "hotmeal/src/dom.rs:Document::serialize_element", "hotmeal/src/dom.rs:is_void_element", "hotmeal/src/dom.rs:is_raw_text_element"]}
{"id": "C45", "title": "The browser applier survives any patches", "statement": "Whatever patch list arrives, the browser (wasm) applier returns, with success or a JavaScript error, without panic or endless loop, and leaves the DOM a tree; nodes stored in slots exist. This includes Moves of a node into itself or its own subtree, which make the native applier panic or build a cycle (C19). A Remove with an empty path, on which the client panics, is excluded and exhibited.", "quantifier": "for all well-formed browser DOMs, all mount elements, all patch lists without an empty Remove path, all rules on valid names and all behaviours of the template parser", "why_tests_cant": "robustness against arbitrary (malformed, stale, adversarial) patch lists", "anchors": ["hotmeal-wasm/src/lib.rs:apply_patch", "hotmeal-wasm/src/lib.rs:insert_at_position", "hotmeal-wasm/src/lib.rs:create_insert_content", "hotmeal-wasm/src/lib.rs:apply_patches_with_slots_on_root"]}
{"id": "C46", "title": "Sibling links agree with children order", "statement": "A tree built and edited by any sequence of safe arena calls (new node, set data, detach, append, insert before, insert after) through first/last-child and previous/next-sibling links is the one described by ordered children lists: both panic on the same calls, and afterwards data, parent, first and last child, both siblings, and the children read forwards and backwards agree at every node. Previous and next are inverse to each other, siblings share a parent.", "quantifier": "for all call sequences from an empty arena in which nodes exist, the reference sibling has a parent, and no node is inserted below its own descendant", "why_tests_cant": "pointer updates over all interleavings of linking operations", "anchors": ["hotmeal/src/dom.rs:Document::append_child", "hotmeal/src/dom.rs:Document::insert_before", "hotmeal/src/dom.rs:Document::insert_after", "hotmeal/src/dom.rs:Document::remove", "hotmeal/src/dom.rs:Document::next_sibling", "hotmeal/src/dom.rs:Document::prev_sibling"]}
{"id": "C47", "title": "The DOM API does what it says", "statement": "A new document is the page with an empty head and body. Each call of the manipulation API changes exactly what it names: creation adds one detached node, append/insert before/insert after move one node to the named place (with sibling queries confirming it) and change nothing else, remove detaches, set_attr/remove_attr/set_text change one node's content and keep attribute order. The calls that panic are exactly those naming a missing node, or moving a node below or beside itself or beside its own child. Sequences of calls keep the document a tree with leaf texts and distinct attribute names, so API-built documents can be diffed; and every HTML content can be built and serializes into the body.", "quantifier": "for all well-formed documents and all call sequences in which only elements get children, siblings have parents and no node is inserted below its own descendant; for all contents", "why_tests_cant": "all interleavings of mutations on all trees", "anchors": ["hotmeal/src/dom.rs:Document::new", "hotmeal/src/dom.rs:Document::append_child", "hotmeal/src/dom.rs:Document::insert_before", "hotmeal/src/dom.rs:Document::insert_after", "hotmeal/src/dom.rs:Document::set_attr", "hotmeal/src/dom.rs:Document::remove_attr", "hotmeal/src/dom.rs:Document::set_text"]}
{"id": "C48", "title": "Client-side content of opaque elements survives live patching", "statement": "Let a client document show the old page, except that client-side code has put anything into its opaque elements. Then the patches from the old to the new page apply without error, outside opaque elements the document shows exactly the new page (and serializes like it), every node inside an opaque element keeps its content, children and parent, nothing else gets inside an opaque element, and an opaque element matched with one of the new page is found with its content where that one is. The same in the browser. By induction, a session of arbitrary page updates and arbitrary client-side changes inside opaque elements never fails and always shows the last page. If the new page removes the mark from an element, its client-side content wrongly remains.", "quantifier": "for all pairs (and sequences) of pages in the domain of C01 whose opaque elements are empty in the pages and matched with opaque elements only (for example: the kind of an element decides whether it is opaque), all client documents, all content inside opaque elements, all client-side changes inside opaque elements", "why_tests_cant": "arbitrary client-side content and arbitrary interleavings of scripts and page updates", "anchors": ["hotmeal/src/diff.rs:diff", "hotmeal/src/diff.rs:1150-1180", "hotmeal/src/dom.rs:Document::apply_patches", "hotmeal-wasm/src/lib.rs:apply_patches"]}
{"id": "C49", "title": "Matched nodes keep their DOM node", "statement": "When the patches of a comparison are applied to a document showing the old page, every node that the comparison matched with a node of the new page is afterwards the very same DOM node, found at the place of its partner; so it keeps state that is not in the HTML (focus, scroll position, listeners). A node of the new page without partner is a newly created DOM node.", "quantifier": "for all pairs of documents in the domain of C01 and all documents showing the old one", "why_tests_cant": "tests compare HTML, which does not show node identity; all trees and edits", "anchors": ["hotmeal/src/diff.rs:diff", "hotmeal/src/dom.rs:Document::apply_patches", "hotmeal/src/dom.rs:Document::apply_patch (Remove, Move)"]}
{"id": "C50", "title": "Patches survive the wire", "statement": "Patches and live-reload events written as postcard bytes by the server are read back unchanged in the browser (names with an empty prefix lose it), so the browser does with the bytes what it would do with the patches. Different lists of patches have different bytes, also when other bytes follow, and bytes that are cut off are rejected.", "quantifier": "for all lists of patches and all events whose numbers and lengths fit their Rust types", "why_tests_cant": "unbounded nesting, all numbers up to 2^32, all strings; all truncations", "anchors": ["hotmeal/src/diff.rs:QualNameProxy, NodePath, NodeRef, InsertContent, Patch", "hotmeal-server/src/lib.rs:LiveReloadEvent::to_postcard", "hotmeal-wasm/src/lib.rs:apply_patches_postcard"]}
{"id": "C51", "title": "Patches carry only content of the new page, in numbers that fit", "statement": "Every inserted element is a node of the new body (with its attributes and some of its descendants), every text, attribute list and opaque content in a patch is that of a node of the new body; nothing of the old page is sent. All path steps and slots are at most |old| + |new| + 2 + 4*|patches|, so they fit the u32 of the patch types. In terms of the pages alone they are at most 144N^2+53N+2 for N = |old|+|new|, so they fit for pages of together 5000 nodes unconditionally. Patches computed by diff are read back from their bytes exactly as written.", "quantifier": "for all pairs of documents whose bodies consist of elements, texts and comments; any hash", "why_tests_cant": "all pairs of documents; numbers near 2^32 cannot be reached by tests", "anchors": ["hotmeal/src/diff.rs:diff", "hotmeal/src/diff.rs:convert_ops_with_shadow", "hotmeal/src/diff.rs:extract_content_from_tree_b", "hotmeal/src/diff.rs:create_insert_patch", "hotmeal/src/diff.rs:compute_path (as u32)"]}
{"id": "C52", "title": "The browser's slot table is a map", "statement": "After any sequence of store and take operations, get and take on a slot give what was stored last in that slot and not taken since; other slots are unaffected. The table is no longer than the largest slot used. The association list used in the model of the applier behaves the same.", "quantifier": "for all sequences of operations and all slots", "why_tests_cant": "all interleavings of stores and takes on all slot numbers", "anchors": ["hotmeal-wasm/src/lib.rs:Slots::store", "hotmeal-wasm/src/lib.rs:Slots::take", "hotmeal-wasm/src/lib.rs:Slots::get"]}
{"id": "C53", "title": "Patches on a mount point stay inside it", "statement": "Let the element found by the mount selector show the old body. Then the patches of a comparison, also when sent as bytes of an event, apply to it without error and are all counted; afterwards it shows exactly the new body, nothing outside of it has changed, and the selector still finds it. For selectors other than body the new body must have no attributes: otherwise they replace those of the mount point, and the selector no longer finds it (witness). A mount point inside the compared body receives patches meant for the body (witness).", "quantifier": "for all pairs of pages in the domain of C33, all documents and selectors whose result depends only on the element, its ancestors and what is outside its content (proved for #id)", "why_tests_cant": "all documents around the mount point, all pairs of pages", "anchors": ["hotmeal-wasm/src/lib.rs:resolve_mount_point", "hotmeal-wasm/src/lib.rs:apply_patches_with_slots_on", "hotmeal-wasm/src/lib.rs:apply_patches_postcard_on", "hotmeal-wasm/src/lib.rs:handle_live_reload_event"]}
{"id": "C54", "title": "A session in touch shows the server's page", "statement": "Whatever a browser shows at first: once its document has been loaded again, by the user or by a Reload or HeadChanged event, and as long as every new page of its route is given while it is connected, every event is handled without error and the mount point shows the page the server has for the route; connections may be lost and made again in between. If a page is given while the connection is down, later patches can give a page the server never had, without any error (witness).", "quantifier": "for all histories of calls on the server, page loads, connections and disconnections; all pages in the domain of C33 and C50", "why_tests_cant": "unbounded histories and interleavings of calls and lost connections", "anchors": ["hotmeal-wasm/src/lib.rs:live_reload_session", "hotmeal-wasm/src/lib.rs:on_event", "hotmeal-wasm/src/lib.rs:handle_live_reload_event", "hotmeal-server/src/lib.rs:LiveReloadServer::diff_route"]}
{"id": "C55", "title": "Reconnection backs off within bounds", "statement": "The browser waits 100 ms after a session that ended well; after failed ones the wait doubles up to 5 s. It is always between 100 ms and 5 s and the doubling does not overflow.", "quantifier": "for all sequences of session results", "why_tests_cant": "unbounded sequences of successes and failures", "anchors": ["hotmeal-wasm/src/lib.rs:live_reload_loop"]}
{"id": "C56", "title": "The loader script says what its arguments say", "statement": "If the arguments contain no double quote, backslash or line break, they are exactly the four string literals of the script and the code around them is always the same; if none contains </script, the script element ends at its end. With a quote in the selector the script is broken, and </script in an argument ends the element (witnesses).", "quantifier": "for all arguments", "why_tests_cant": "all strings", "anchors": ["hotmeal-server/src/lib.rs:loader_script"]}
{"id": "C57", "title": "Any event leaves the browser page in order", "statement": "Whatever bytes a patches event carries, handling it ends with success or an error, the document stays a tree, nothing outside of the mount point changes, and if the bytes are no patches or there is no mount point it is an error and nothing changes at all; so through any stream of such events. Exception: patches that remove the mount point itself (Remove [] and Remove [0]).", "quantifier": "for all byte strings, documents, selectors and streams of events", "why_tests_cant": "all byte strings", "anchors": ["hotmeal-wasm/src/lib.rs:handle_live_reload_event", "hotmeal-wasm/src/lib.rs:apply_patches_postcard_on", "hotmeal-wasm/src/lib.rs:on_event"]}
{"id": "C58", "title": "The library's trees are what was asked for, and are compared soundly", "statement": "Tree::new followed by any add_child calls with existing parents never panics and gives exactly the nodes, data, parents and child order of the calls; the iterators list every node once. diff_trees on two such trees always returns, whatever the configuration and the hashes; the matching is a partial bijection, every unmatched node with a parent is inserted once at its place, every unmatched old node is deleted once, a text is set exactly for matched nodes with another new text. A root without partner is never inserted (witnesses), a text that is gone is not removed (witness).", "quantifier": "for all sequences of calls, configurations and hashes", "why_tests_cant": "unbounded call sequences, all hash values", "anchors": ["cinereus/src/tree.rs:add_child", "cinereus/src/tree.rs:Tree", "cinereus/src/lib.rs:diff_trees"]}
{"id": "C59", "title": "Equal trees need no edits under any configuration", "statement": "diff_trees on two trees with the same content (ids may differ) gives no operations, for every minimum height and every threshold up to 1. With a threshold above 1 a tree can differ from itself (witness).", "quantifier": "for all trees, minimum heights and thresholds up to 1", "why_tests_cant": "all configurations and tree shapes", "anchors": ["cinereus/src/lib.rs:diff_trees", "cinereus/src/matching.rs:compute_matching"]}
{"id": "C60", "title": "Precomputed tables hold what the recursion says", "statement": "After the two passes of DiffableDocument::new and the loop of recompute_hashes, exactly the nodes of the body (of the built tree) have an entry, and each has its kind, attributes, text, the hash of its kind, text and children's hashes, and its height; the lazily filled caches of descendants and positions answer every query as computing afresh would.", "quantifier": "for all documents, hash functions and query sequences", "why_tests_cant": "all tree shapes and orders of queries", "anchors": ["hotmeal/src/diff.rs:DiffableDocument::new", "hotmeal/src/diff.rs:recompute_hashes", "cinereus/src/matching.rs:get_or_compute"]}
{"id": "C61", "title": "The hash input loses nothing but attributes and the spelling of tags", "statement": "Two nodes whose hashers receive the same writes have the same text, the same list of child hashes, and the same kind up to tags of equal atom hash. So if the hasher does not collide on the inputs of two pages and no two different tags of them have one atom hash, the pages' hashes are faithful, and the round trip of C01 holds. Without the second condition it fails (witness).", "quantifier": "for all pages, hashers and atom hashes", "why_tests_cant": "collisions do not show up on sample pages", "anchors": ["hotmeal/src/diff.rs:NodeKind", "hotmeal/src/diff.rs:recompute_hashes"]}
{"id": "C62", "title": "Live reload of pages given as text", "statement": "If html5ever keeps its contract on every text, the server's diff_html never fails, whatever texts it is given; and clients that parsed the text of the page (a program, a browser, a browser with a mount point and lost connections) show the body of the text the server has, after any history of calls in the domain of C01, with every event handled without error.", "quantifier": "for all texts and histories of calls, under html5ever's contract", "why_tests_cant": "all histories, all pages", "anchors": ["hotmeal-server/src/lib.rs:diff_route", "hotmeal/src/diff.rs:diff_html", "hotmeal/src/dom.rs:parse"]}
{"id": "C63", "title": "Edits in place: as many patches as there are edits", "statement": "If the new body has the shape of the old one and differs only in texts, comments, attributes (elements with edits inside keep half of their names) and the content of opaque elements, no changed subtree has a twin elsewhere at the same labels, at least half of the nodes are unchanged, and the new body has no attributes, then diff returns exactly one patch for each edit (SetText, UpdateProps, OpaqueChanged at its path): nothing is inserted, moved or removed. Applying them gives the new body, and only opaque elements change their children. For texts alone: one SetText per changed text if old and new text do not occur in the other page. Without each hypothesis it fails (witnesses); for an ordinary element after an opaque one of its tag even the resulting page is wrong.", "quantifier": "for all pairs of documents of that form, all collision-free hashes, all parsers", "why_tests_cant": "minimality for all trees and combinations of edits", "anchors": ["cinereus/src/matching.rs:compute_matching", "cinereus/src/chawathe.rs:generate_edit_script", "hotmeal/src/diff.rs:diff", "hotmeal/src/dom.rs:apply_patches"]}
{"id": "C64", "title": "Borrowed and owned strings are the same text", "statement": "The string made of a piece of text of the parser has that text, without panic, whether the piece lies in the input (then it is borrowed from it, cut at character boundaries) or elsewhere (then it is copied); appending to it, making it owned, comparing, hashing and measuring it are those operations on the text. Patches made owned say what they said before, borrow nothing, and can be read with any memory; borrowed ones can be read as long as the bytes they borrow are unchanged. Escaping by characters is escaping by bytes. (An empty piece whose address is inside a character panics: witness.)", "quantifier": "for all memories, inputs and pieces that are UTF-8, all stems, all patches", "why_tests_cant": "addresses, overlaps and multi-byte characters in all combinations", "anchors": ["hotmeal/src/stem.rs:Stem", "hotmeal/src/dom.rs:tendril_to_stem", "hotmeal/src/dom.rs:escape_text", "hotmeal/src/diff.rs:into_owned"]}
{"id": "C65", "title": "Every match has a reason and obvious matches are not missed", "statement": "Each pair of the matching is added for one of seven reasons that look only at earlier pairs: equal trees of the minimal height or the same place in them, opaque elements of one kind, same position below matched parents with similar attributes, enough matched descendants in common with similar attributes below the parent's partner, roots, equal leaves below matched parents, equal or similar leaves without matched parent. So in diff a node is turned into another only if both have the same hash, share half of their attribute names, one is opaque, or they are the bodies. Conversely, of two nodes of one kind that both stay unmatched it never holds that they are at the same position below matched parents and similar, or equal leaves below matched parents, or equal or similar leaves of which the old one's parent is unmatched, unless the new one's parent is matched to an element that is not above the old one. Nor is a pair of nodes with enough content in common: if both are without partner, of the same kind, with similar attributes, the second with children, and their parents' partners are above them, then what the first phase matched below them is less than the threshold asks for.", "quantifier": "for all trees, hashes, kinds, similarity functions and configurations", "why_tests_cant": "which of several candidates is taken depends on all earlier pairs; tests look at single pages", "anchors": ["cinereus/src/matching.rs:compute_matching", "cinereus/src/matching.rs:top_down_phase", "cinereus/src/matching.rs:bottom_up_phase", "cinereus/src/matching.rs:ancestry_compatible"]}
{"id": "C66", "title": "What the patches keep in a browser", "statement": "In a browser showing the old page, the patches of a comparison leave every matched node the same DOM node, found at the place of its partner, and create a node for each new node without partner. If the new body differs from the old one only by edits in place (texts, comments, attributes, content of opaque elements, under the conditions of C63), then no node is created, no node changes its parent or its children, a node's own data changes only where there is an edit, and the element then shows the new body, with whatever client-side code had put into opaque elements. If only texts change, no element changes at all, and the browser's HTML is that of the new page.", "quantifier": "for all pairs of documents of that form with names a browser accepts, all browsers' DOM trees showing the old page, also with empty texts left by earlier patches and foreign content in opaque elements", "why_tests_cant": "node identity, focus and scroll state are not in the HTML that tests compare; all trees and edits", "anchors": ["hotmeal-wasm/src/lib.rs:apply_patch", "hotmeal-wasm/src/lib.rs:apply_patches_with_slots_on_root", "hotmeal/src/diff.rs:diff"]}
{"id": "C67", "title": "Content added or taken away costs the patches it should", "statement": "If the new body is the old one with subtrees added and subtrees taken away at any depth, and beside that edited texts, comments and attributes, and the change can be read in one way only (the nodes that are in both pages can be told apart from the new and from the lost ones, at least half of the nodes have an unchanged counterpart), then diff returns one insertion for each new node, one removal for each lost node, one move for each kept node whose index among its siblings has changed, one further patch for each kept node with another text or other attributes, and nothing else. Every kept node stays the same DOM node and is found at its new place, every new node is created, and the page then shows the new body, for a client of the Rust library and for a browser.", "quantifier": "for all pairs of documents of that form and all readings (plans) of the change, for all client documents that show the old page", "why_tests_cant": "tests check the resulting HTML of chosen pairs, not the number of patches nor node identity; the claim is for all trees and all combinations of additions, removals and edits", "anchors": ["cinereus/src/matching.rs:compute_matching", "cinereus/src/chawathe.rs:generate_edit_script", "hotmeal/src/diff.rs:diff", "hotmeal-wasm/src/lib.rs:apply_patch"]}
{"id": "C68", "title": "A browser's page does not accumulate nodes", "statement": "However many updates a browser applies, one after the other, each the difference between a page and the next one: every list of patches applies, the browser then shows the last page, and no node of its DOM has more children than it had at the start or than the widest node of the pages of the session. The empty texts that removals leave behind do not pile up. Whatever patches are applied, even ones that fail half way, a node gets no more children than it had or than the positions in the patches and the contents they carry allow.", "quantifier": "for all sequences of pages of any length in the domain of C33, for all browser documents that show the first one; the second part for all documents and all lists of patches", "why_tests_cant": "tests and fuzz targets compare the HTML after one update; leftover empty texts are invisible in HTML and grow only over many updates", "anchors": ["hotmeal-wasm/src/lib.rs:insert_at_position", "hotmeal-wasm/src/lib.rs:apply_patch", "hotmeal/src/diff.rs:diff", "hotmeal/src/dom.rs:insert_at_position"]}
{"id": "C69", "title": "The patches carry no more text than the new page", "statement": "All tags, attribute names, attribute values and texts in the patches of a diff together are at most as long as the HTML of the body of the new page, plus the attributes of the body itself once more. So no node's content is sent twice and content that only moves is not sent. Nothing is sent if the new page has no body.", "quantifier": "for all old documents, all new documents that are trees whose void elements are empty and that have no opaque elements, all hash functions", "why_tests_cant": "tests check that patches have the right effect, not how large they are; a diff that sends content twice has the right effect", "anchors": ["hotmeal/src/diff.rs:diff", "hotmeal/src/diff.rs:convert_ops_with_shadow", "hotmeal/src/diff.rs:extract_content_from_tree_b", "cinereus/src/chawathe.rs:generate_edit_script"]}
{"id": "C70", "title": "Floating-point scores decide as exact fractions", "statement": "Every comparison of similarity scores that the matching makes in f64 (at least the threshold, below the threshold, greater than the best so far) comes out as the comparison of the exact fractions of counts. So the matching and the whole list of patches are the same as with exact arithmetic. From counts of 2^27 on, two different fractions can be the same f64.", "quantifier": "for all counts below 2^26; for all pairs of documents that are trees with fewer than 2^25 nodes and fewer than 2^25 attributes on each element; all hash functions", "why_tests_cant": "a rounding error shows only for particular pairs of counts among 2^104, and then as a slightly worse but still correct diff", "anchors": ["cinereus/src/matching.rs:dice_coefficient", "cinereus/src/matching.rs:bottom_up_phase", "hotmeal/src/diff.rs:similarity"]}
{"id": "C71", "title": "Inserted content is shown also when the DOM API rejects a name", "statement": "When the browser client inserts content, the node it makes is the tree that the content stands for, whether createElement and setAttribute take all the names or the client falls back to markup that the browser parses. The markup is what the native serializer writes, so the browser's parser is only asked to read that back. This fails for content with void elements or with scripts that need escapes: a line break is doubled, a script gets its escapes as text.", "quantifier": "for all contents with names in lower case and no attribute twice, all choices of names that the DOM rejects, any existing page", "why_tests_cant": "the fallback is reached only for names that HTML parsers accept and DOM calls reject, nested anywhere in the inserted content", "anchors": ["hotmeal-wasm/src/lib.rs:create_insert_content", "hotmeal-wasm/src/lib.rs:create_element_via_html", "hotmeal-wasm/src/lib.rs:serialize_insert_content", "hotmeal-wasm/src/lib.rs:create_element_with_attrs"]}
{"id": "C72", "title": "The browser's patches can be applied in any number of calls", "statement": "Applying a list of patches to the body of a browser page through any number of calls of apply_patches_with_slots that share one Slots value gives the same page, slots, error and total count as one call; the count returned on success is the number of patches; the postcard and JSON entry points and apply_patches_on with selector body do the same. Setting the body's innerHTML replaces exactly the body's content, and the cycle of the browser tests (set the old text, diff two texts, apply one patch at a time, read the text) ends with the HTML of the new page.", "quantifier": "for all browser documents with a body, all patch lists without removal of the body (not only generated ones) and all divisions into calls; for the cycle, all pairs of pages in the domain of C01 with names as for C33", "why_tests_cant": "the browser fuzzer applies one patch per call on sampled pages while the live client applies all at once; that both agree, for every division and also when a patch fails, is a statement about all lists", "anchors": ["hotmeal-wasm/src/lib.rs:126-149", "hotmeal-wasm/src/lib.rs:346-373", "hotmeal-wasm/src/lib.rs:905-932", "hotmeal/fuzz/browser-wasm/src/lib.rs:211-309"]}
{"id": "C73", "title": "Each patch changes exactly what it names", "statement": "A path [slot, i, j, ...] names the node reached from the slot's node by these child positions. A patch whose path names nothing reports the slot or the first position that is missing (or an empty path) and changes nothing; one that names a node of the wrong kind reports that and changes nothing. Otherwise SetText, SetAttribute, RemoveAttribute and UpdateProps change the content of the named node alone; Remove puts an empty text in its place; an insertion makes the named content child number i of the named parent, filling missing positions with empty texts and, with a slot, taking out the child that was there and storing it in the slot; a Move is a removal followed by such an insertion. Nothing else in the document changes.", "quantifier": "for all documents, slot tables and patches (not only generated ones); for Move, destinations that are not inside the moved node", "why_tests_cant": "the tests compare the serialized result of generated patch lists; that a single arbitrary patch leaves every other node, parent, attribute and slot alone, and which error a wrong path gives, ranges over all documents and paths", "anchors": ["hotmeal/src/dom.rs:413-454", "hotmeal/src/dom.rs:493-700", "hotmeal/src/dom.rs:702-820"]}
{"id": "C74", "title": "In the browser each patch changes exactly what it names", "statement": "The browser client's lookup finds the node reached from the slot's node (slot 0: the mount point, whatever the slot table says) by the child positions of the path, and otherwise its error says which slot or position is missing. A refused patch changes nothing: missing path, wrong kind of node, rejected attribute name, parent that is no element. SetText, SetAttribute, RemoveAttribute and UpdateProps change only the named node (SetText of an element its children); Remove puts an empty text in the node's place, or empties a slot; an insertion or a move puts the node at the named position in place of the child that was there, which leaves the page and goes to the slot if one is given; missing positions are filled with empty texts. Nothing else in the page changes. (SetText of an element is an error natively.)", "quantifier": "for all browser documents, mount points, slot tables and patches (not only generated ones), all choices of valid names; for Move, nodes that are out of the page after being taken and destinations not inside them", "why_tests_cant": "browser tests compare pages after generated patch lists; the effect of an arbitrary patch on every other node, and the error and the page after a patch that fails half way, range over all pages and paths", "anchors": ["hotmeal-wasm/src/lib.rs:375-670", "hotmeal-wasm/src/lib.rs:671-719", "hotmeal-wasm/src/lib.rs:847-898"]}
{"id": "C75", "title": "Patches act on what a page shows", "statement": "Two documents that show the same page answer any list of patches in the same way, whatever their history: node ids, the order of nodes in the arena and nodes that are no longer part of the page make no difference. They give the same result, or the same error or panic at the same patch, and afterwards they again show the same page and have the same HTML. The same holds for the browser client on any mount point, and for events: two tabs that show the same page and handle the same events (any bytes; reloads give both the same page) show the same page after every event.", "quantifier": "for all pages, all pairs of documents that show them, all patch lists (not only generated ones; also lists that fail or panic half way), all event sequences, all mount points found by what the page shows", "why_tests_cant": "tests apply patches to freshly parsed documents; documents left by earlier patches have other node ids and leftover nodes, in infinitely many ways", "anchors": ["hotmeal/src/dom.rs:413-820", "hotmeal-wasm/src/lib.rs:212-235", "hotmeal-wasm/src/lib.rs:333-719"]}
{"id": "C76", "title": "The patches between two pages depend on what the pages show", "statement": "The outcome of diff, patches included, is the same for any two documents that show the old page and any two documents that show the new page: node ids, the order of nodes in the arena and leftover nodes make no difference. In particular a document that patches have been applied to has the same diffs as a freshly parsed document that shows the same. For the library: two pairs of trees that differ in node names only have the same matching and the same edit script under these names.", "quantifier": "for all pages, all pairs of documents that show them, all hash functions (collisions allowed), all patch lists without Move applied before the diff, all trees and all one-to-one renamings", "why_tests_cant": "tests diff freshly parsed documents, whose ids follow the page; a dependence on ids (ordering, a stale index, an off-by-one between arenas) shows only for documents with a history", "anchors": ["hotmeal/src/diff.rs:1049-1181", "hotmeal/src/diff.rs:1537-1853", "cinereus/src/matching.rs:164-718", "cinereus/src/chawathe.rs:182-387"]}
{"id": "C77", "title": "How much the matching looks at", "statement": "The top-down phase never takes the same pair of nodes from its stack twice, and the bottom-up phase never computes the Dice coefficient of the same pair twice; so neither number exceeds the product of the tree sizes, and the reported number of Dice calls is at most the product of the reported numbers of distinct nodes. Dice coefficients are computed only for pairs that the top-down phase left unmatched, with the same kind, outside opaque subtrees, the second one an inner node. Trees with equal roots need one candidate. Recording changes no result and depends on no earlier run. The quadratic bound is attained up to a constant. Finding the position of the k-th child looks at exactly k siblings.", "quantifier": "for all pairs of finite trees, all hash and kind comparisons (collisions allowed), all similarity functions, all configurations, all earlier records", "why_tests_cant": "tests run small pages in which a repeated or superfluous comparison costs nothing; a bound on the work holds or fails over all tree shapes", "anchors": ["cinereus/src/matching.rs:14-36", "cinereus/src/matching.rs:186-298", "cinereus/src/matching.rs:396-718", "cinereus/src/tree.rs:10-30", "cinereus/src/tree.rs:102-115"]}
{"id": "C78", "title": "What the fuzz targets record and compare", "statement": "The run recorded by the fuzz targets is the run of the patches: step i succeeds exactly when apply_patches succeeds on the first i+1 patches, and then it holds the tree of that document; a failed step holds the error of the first patch that fails, or says it was skipped; all steps succeed exactly when apply_patches does, and then the last tree is that of the patched document. A run without moves is always recorded. The tree of a node is its content without namespaces, with tags in lower case and attributes sorted by name; two trees compare equal exactly when they are the same; so pages that differ in namespace, tag case or attribute order are not told apart. The parity target on documents without a body (all that parse_body_fragment makes) gives a verdict that depends on neither the new page nor the appliers; with any patch that succeeds on both sides it would always report a difference. The same holds of the run recorded in a browser, which begins with no slots. compare_traces finds no difference exactly if the first trees are equal, there are as many steps, and every two steps are both fine with equal trees or both errors with the same text; trees of failed steps are never compared. After a run without errors apply.rs serializes the document that apply_patches leaves. apply_structured.rs passes exactly if there are patches, they can be applied and the pages then have the same HTML; if apply.rs passes and there is a patch, the patches can be applied and the bodies have the same HTML.", "quantifier": "for all documents, browser pages, patch lists, hash functions, parsers, name checks and error texts", "why_tests_cant": "the fuzz targets are the tests; that a target cannot fail, or that its records are right, is a statement about all its inputs", "anchors": ["hotmeal/fuzz/fuzz_targets/common/patch_trace.rs:11-118", "hotmeal/fuzz/fuzz_targets/common/patch_trace.rs:255-338", "hotmeal/fuzz/fuzz_targets/common/dom_node.rs:8-60", "hotmeal/fuzz/fuzz_targets/apply_parity.rs:23-123", "hotmeal/fuzz/browser-wasm/src/lib.rs:50-136", "hotmeal/fuzz/browser-wasm/src/lib.rs:310-390", "hotmeal/src/dom.rs:1082-1102"]}
{"id": "C79", "title": "Native and browser appliers agree patch by patch", "statement": "Take a native document and a browser page with the same content (attributes under their qualified names), and a list of patches each of which suits the document it is applied to: names that the browser keeps as they are and that stay distinct, no insertion without slot onto an occupied place, texts set on text and comment nodes only, slots other than 0 that hold a parentless node when they are removed, no OpaqueChanged. If the browser applies the list without an exception then the native applier applies it without error or panic, after every single patch both show the same tree under the body, and at the end the whole pages have the same content. None of the conditions can be left out: for each there are patches that the browser applies but after which the trees differ or the native applier fails.", "quantifier": "for all documents and browser pages with the same content, patch lists, parsers, name checks and error texts", "why_tests_cant": "the parity fuzz target compares single runs (and none of them applies a patch, F47); the statement is about every patch list and every intermediate state, with slots and moves", "anchors": ["hotmeal/src/dom.rs:493-820", "hotmeal-wasm/src/lib.rs:346-898", "hotmeal/fuzz/fuzz_targets/common/patch_trace.rs:51-101", "hotmeal/fuzz/browser-wasm/src/lib.rs:310-390"]}
{"id": "C80", "title": "The patches of a diff keep document and browser in step", "statement": "Take two documents in the domain of C01 whose names a browser keeps as they are, and a browser page with the content of the old one. Then every patch of diff(old, new) suits the document it comes to (C79), so that native applier and browser apply all of them without an error, and after every single patch both show the same tree under the body. On documents in the domain of C01, whatever their names, the fuzz target apply.rs passes: diff has patches, the recorded run has no failed step, and the patched document has the body of the new one.", "quantifier": "for all pairs of documents in the domain of C01, browser pages with the content of the old document, hash functions without collision on the two documents, parsers and error texts", "why_tests_cant": "a statement about every intermediate state for every pair of documents; the fuzz target sees single pairs, and its parity variant never applies a patch (F47)", "anchors": ["hotmeal/src/diff.rs:diff", "hotmeal/src/dom.rs:493-820", "hotmeal-wasm/src/lib.rs:346-898", "hotmeal/fuzz/fuzz_targets/apply.rs:17-61", "hotmeal/fuzz/fuzz_targets/common/patch_trace.rs:51-101"]}
{"id": "C81", "title": "The whole page after the patches of a diff", "statement": "Take two documents in the domain of C01, the old one with the page html = [pre..., body, post...]. Then diff(old, new) has patches, they apply without an error, and the patched document has the page [pre..., body', post...] with the same root tag and attributes, the same siblings of the body before and after it, the same doctype; body' has the content of the new body (up to empty texts), and its attributes are those of the new body if that has any, else those of the old one. The HTML of the whole page is the serialization of exactly that. Consequently, on pages that agree outside their bodies the fuzz target apply_structured.rs passes, unless the old body has attributes and the new one none, where it fails; pages with different heads can fail it.", "quantifier": "for all pairs of documents in the domain of C01 and all pages around the old body, hash functions without collision on the two documents, parsers", "why_tests_cant": "the generator of the fuzz target makes pages with an empty head and a body without attributes only; the statement is for every page around the body and every pair of attribute lists", "anchors": ["hotmeal/src/diff.rs:diff", "hotmeal/src/diff.rs:1033-1044", "hotmeal/src/dom.rs:370-409", "hotmeal/src/dom.rs:493-820", "hotmeal/fuzz/fuzz_targets/apply_structured.rs:52-67"]}
{"id": "C82", "title": "Inputs of the fuzz targets", "statement": "In every text that passes the input filter of the fuzz targets each < is followed by a > before any other < or >; no part of it is <details, <template, <select, <!d or <!doctype in any case; no heading is closed as a heading of another level (with no < in between and no / before it); no reference to the newline comes after the first > after <pre, <textarea or <listing. Every character of it is printable, a tab or a line feed, not U+FEFF, the first one not white space; a text without < passes exactly if it is of this kind. No <html, <li, <div, <p>, <p with a space or <table comes after a <math, no <html after an <svg unless there is a <math, no <title after an <svg unless one comes before; the first <html has no attributes. Headings that are closed one by one are not taken for mismatched. The check for tags in tags finds exactly the texts with two < and a > after them and no > before it, the check for custom elements exactly those with < and a name with a hyphen that is not first. Decimal references are taken for a newline exactly if their number is 10, hexadecimal ones with number 10 all are (others, such as &#xab, too). The positions that find returns are character boundaries where slicing does not panic. The pair of texts given to a target is two different texts in UTF-8, not blank, that both pass, the first being the data after three bytes; the second is the first cut, with an insertion, a doubled part, its parts exchanged or one character replaced, as the first byte says. The filter has gaps: title in svg, html in svg, and newline references after a tag with > in an attribute can pass.", "quantifier": "for all texts (lists of Unicode scalar values) and all data", "why_tests_cant": "the filter decides which inputs the fuzz targets ever see, so the targets cannot show what it hides or lets through; nothing tests the filter itself", "anchors": ["hotmeal/fuzz/fuzz_targets/common/mod.rs:37-136", "hotmeal/fuzz/fuzz_targets/common/mod.rs:141-279", "hotmeal/fuzz/fuzz_targets/common/mod.rs:290-532", "hotmeal/fuzz/fuzz_targets/common/mod.rs:537-565"]}
{"id": "C83", "title": "Memory that patches take", "statement": "Applying any list of patches to a native document, also one that fails half way, never shrinks the arena and adds at most the nodes that the patches list (contents of insertions, parsed opaque contents), one empty text for each removal and each move of a node in a tree, and as many as the position for each insertion and move. For the patches of a diff of two pages (as in C68) the empty texts are at most F for each patch if no node of the new page has more than F children. There is no bound by the bytes of the patches: a list of one patch of at most eleven bytes makes a body (native or in the browser) of any number of children from what it has up to 2^32.", "quantifier": "for all states and lists of patches; for all plain comparable pages; for all positions below 2^32", "why_tests_cant": "tests apply patches made by diff to small documents and look at the HTML, where empty texts and detached nodes do not show", "anchors": ["hotmeal/src/dom.rs:493-700", "hotmeal/src/dom.rs:742-780", "hotmeal-wasm/src/lib.rs:671-719"]}
{"id": "C84", "title": "Pages of the chaos mode", "statement": "If int_in_range of the crate arbitrary always answers with a number of the range, every text and comment that the chaos mode of the structured fuzz target generates consists of at most 100 ASCII letters and digits; tags are names of at most 20 characters, attribute names of at most 16, values letters, digits, spaces and - _ / .; void elements have no children and elements with a void tag are void. So no generated element is opaque, the escaping in to_html changes nothing and a page is the plain text of the nodes of the depths 0 to 6, and all characters of a page are printable ASCII other than &. A generated page can have a second body tag with attributes.", "quantifier": "for all data, all states and all draws of the crate arbitrary within the stated contract, all doctypes", "why_tests_cant": "the generator decides what the fuzz target tries; what it never makes shows in no run", "anchors": ["hotmeal/fuzz/fuzz_targets/common/dom_generator.rs:15-290", "hotmeal/fuzz/fuzz_targets/common/dom_generator.rs:1572-1581", "hotmeal/fuzz/fuzz_targets/common/dom_generator.rs:2819-2911"]}
{"id": "C85", "title": "The name filter of the fuzz targets", "statement": "patches_are_valid_for_dom lets patches through exactly if is_valid_tag_name accepts every tag and is_valid_attr_name the local part of every attribute name that the patches hand to the DOM, at any depth of inserted contents. If the browser's DOM accepts what the filter accepts and names have no prefixes, creating an accepted content never falls back to parsing text: the result does not depend on the browser's parser. A name is accepted for an attribute exactly if it is not empty, does not begin with white space and has no = < > \" ' / or control character; for a tag exactly if it also has no white space anywhere. Accepted attribute names without spaces and accepted tags that begin with an ASCII letter are names by the DOM standard of 2025; it is refuted that all accepted names are names of the DOM.", "quantifier": "for all patches, all name predicates and browsers' parsers in the statements on patches; for all texts in those on names", "why_tests_cant": "the filter decides which inputs the fuzz targets compare at all; a wrong answer silently drops inputs or reports false differences", "anchors": ["hotmeal/fuzz/fuzz_targets/common/mod.rs:568-680", "hotmeal-wasm/src/lib.rs:721-845"]}
