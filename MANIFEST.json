{
 "claims": [
  {
   "property": "C01",
   "status": "proved",
   "theorems": [
    "diff_roundtrip",
    "diff_roundtrip_opaque",
    "diff_roundtrip_ordered",
    "diff_roundtrip_no_moves",
    "diff_roundtrip_unconditional_refuted"
   ],
   "note": "for edits in which no Move puts a node below itself; without that condition refuted by a witness in which a subtree is lost. Sufficient conditions on the documents alone: a common order on kinds, or no Moves"
  },
  {
   "property": "C02",
   "status": "proved",
   "theorems": [
    "diff_roundtrip",
    "diff_roundtrip_ordered",
    "diff_patches_panic_refuted"
   ],
   "note": "application succeeds, result acyclic, same domain as C01; outside it the native applier can panic (witness)"
  },
  {
   "property": "C03",
   "status": "proved",
   "theorems": [
    "matching_is_partial_bijection",
    "forced_body_match_bijection",
    "forced_body_match_refuted",
    "nested_body_roundtrip_refuted"
   ],
   "note": "compute_matching for all trees, hashes, similarities and thresholds. The extra body pair added by diff keeps this when no other element has the body's kind; with a nested body it is refuted."
  },
  {
   "property": "C04",
   "status": "proved",
   "theorems": [
    "matched_nodes_same_kind",
    "colliding_hashes_refuted"
   ],
   "note": "assumes no hash collision between the two trees; with collisions it is refuted by a witness"
  },
  {
   "property": "C05",
   "status": "proved",
   "theorems": [
    "opaque_content_not_matched",
    "opaque_content_not_edited",
    "new_opaque_content_matched_refuted"
   ],
   "note": "old side; the corresponding claim about the new side is refuted"
  },
  {
   "property": "C06",
   "status": "proved",
   "theorems": [
    "inserts_exact"
   ],
   "note": ""
  },
  {
   "property": "C07",
   "status": "proved",
   "theorems": [
    "deletes_exact"
   ],
   "note": ""
  },
  {
   "property": "C08",
   "status": "proved",
   "theorems": [
    "moves_exact",
    "moves_only_matched"
   ],
   "note": ""
  },
  {
   "property": "C09",
   "status": "proved",
   "theorems": [
    "script_is_ordered"
   ],
   "note": ""
  },
  {
   "property": "C10",
   "status": "proved",
   "theorems": [
    "diff_same_content",
    "diff_self_empty",
    "diff_self_body_attributes_refuted",
    "diff_self_duplicate_attributes_refuted"
   ],
   "note": "for a body without attributes and distinct attribute names, opaque elements included; both excluded cases are shown to be counterexamples"
  },
  {
   "property": "C11",
   "status": "proved",
   "theorems": [
    "attr_update_reproduces_new"
   ],
   "note": ""
  },
  {
   "property": "C12",
   "status": "proved",
   "theorems": [
    "no_attr_update_means_equal",
    "updates_exact",
    "equal_attrs_need_no_update",
    "duplicate_attrs_refuted"
   ],
   "note": "repeated attribute names excluded; refuted otherwise"
  },
  {
   "property": "C13",
   "status": "proved",
   "theorems": [
    "text_escaping_safe"
   ],
   "note": ""
  },
  {
   "property": "C14",
   "status": "proved",
   "theorems": [
    "attr_escaping_safe"
   ],
   "note": ""
  },
  {
   "property": "C15",
   "status": "proved",
   "theorems": [
    "serialization_determines_tree",
    "serialization_ambiguous_refuted"
   ],
   "note": "raw-text and void elements included where readable; the excluded shapes are exhibited as ambiguous"
  },
  {
   "property": "C16",
   "status": "proved",
   "theorems": [
    "empty_text_invisible",
    "empty_text_invisible_node"
   ],
   "note": ""
  },
  {
   "property": "C17",
   "status": "proved",
   "theorems": [
    "no_patches_no_change"
   ],
   "note": ""
  },
  {
   "property": "C18",
   "status": "proved",
   "theorems": [
    "application_is_incremental",
    "application_steps_exist",
    "application_splits"
   ],
   "note": ""
  },
  {
   "property": "C19",
   "status": "proved",
   "theorems": [
    "application_keeps_tree",
    "move_makes_cycle_refuted",
    "move_panics_refuted"
   ],
   "note": "Move-free lists; Move refuted by two witnesses"
  },
  {
   "property": "C20",
   "status": "proved",
   "theorems": [
    "slots_numbered_in_order",
    "slots_before_use",
    "slots_before_use_all",
    "applied_slots_known",
    "slots_before_use_refuted"
   ],
   "note": "numbering for all well-formed documents; introduction before use for all well-formed documents and all patches but Remove, and for Remove in the domain of C01; refuted for Remove when a Move nests a node below itself"
  },
  {
   "property": "C21",
   "status": "proved",
   "theorems": [
    "outside_body_untouched",
    "head_tree_untouched",
    "remove_body_refuted"
   ],
   "note": "any patch list (Moves included, failing ones too) that does not Remove or Move the body element itself; removing the body is the counterexample"
  },
  {
   "property": "C22",
   "status": "proved",
   "theorems": [
    "cache_is_last_html",
    "routes_are_independent"
   ],
   "note": ""
  },
  {
   "property": "C23",
   "status": "proved",
   "theorems": [
    "patched_client",
    "client_converges",
    "client_converges_ordered",
    "cache_html_desync_refuted",
    "head_change_unnoticed_refuted"
   ],
   "note": "the client document is the one left by all earlier patches, not a freshly parsed page; refuted when cache_html replaces the page between two diffs, and for the head of the page"
  },
  {
   "property": "C24",
   "status": "proved",
   "theorems": [
    "head_change_reported_exactly",
    "events_name_their_route"
   ],
   "note": ""
  },
  {
   "property": "C25",
   "status": "proved",
   "theorems": [
    "inject_adds_once",
    "inject_into_header_refuted"
   ],
   "note": "characterises the insertion place exactly; that the place belongs to a head element is refuted (header)"
  },
  {
   "property": "C26",
   "status": "proved",
   "theorems": [
    "set_attr_reads_back",
    "set_attr_frames",
    "set_attr_keeps_order",
    "set_attr_no_duplicates",
    "remove_attr_removes",
    "remove_attr_frames",
    "remove_after_set_restores"
   ],
   "note": ""
  },
  {
   "property": "C27",
   "status": "proved",
   "theorems": [
    "body_added",
    "body_removed",
    "no_bodies"
   ],
   "note": "new (old) document well-formed, hash functions arbitrary"
  },
  {
   "property": "C28",
   "status": "proved",
   "theorems": [
    "post_order_correct",
    "pre_order_correct"
   ],
   "note": ""
  },
  {
   "property": "C29",
   "status": "proved",
   "theorems": [
    "dice_in_unit_interval",
    "attr_similarity_in_unit_interval",
    "attr_similarity_reflexive",
    "dice_extremes",
    "attr_similarity_extremes"
   ],
   "note": ""
  },
  {
   "property": "C30",
   "status": "proved",
   "theorems": [
    "sink_merges_text",
    "sink_text_is_kept",
    "sink_text_before",
    "remove_makes_adjacent_text_refuted"
   ],
   "note": "for callback sequences that only add; after removals adjacent text nodes can appear, which is exhibited"
  },
  {
   "property": "C31",
   "status": "proved",
   "theorems": [
    "diff_total"
   ],
   "note": "for all hash functions and all pairs of documents whose arena is a forest in which texts and comments are leaves and no document node is a child"
  },
  {
   "property": "C32",
   "status": "proved",
   "theorems": [
    "edit_script_size",
    "patch_count",
    "patch_count_all"
   ],
   "note": "edit operations for all documents; the same bound for patches in the domain of C01, where no Move nests a node below itself; a quadratic bound for patches of all documents"
  },
  {
   "property": "C33",
   "status": "proved",
   "theorems": [
    "browser_agrees",
    "browser_update_rejected_refuted",
    "browser_lower_case_refuted",
    "browser_empty_prefix_refuted",
    "browser_insert_replaces_refuted"
   ],
   "note": "for names that browsers accept and keep as they are; the three kinds of other names are exhibited as disagreements. The DOM itself is modelled after its standard"
  },
  {
   "property": "C34",
   "status": "proved",
   "theorems": [
    "detection_ignores_case",
    "doctype_exact",
    "structure_anywhere",
    "lower_case_exact"
   ],
   "note": ""
  },
  {
   "property": "C35",
   "status": "proved",
   "theorems": [
    "opaque_changes_exact",
    "opaque_change_applied",
    "opaque_path_stale_refuted",
    "opaque_attribute_change_lost_refuted"
   ],
   "note": "paths are those of the old document; applied after other patches they can address another element (witness)"
  },
  {
   "property": "C36",
   "status": "proved",
   "theorems": [
    "add_attrs_only_adds",
    "add_attrs_callback"
   ],
   "note": ""
  },
  {
   "property": "C37",
   "status": "proved",
   "theorems": [
    "sink_builds_tree",
    "creation_exact",
    "reparent_exact",
    "insertion_exact",
    "removal_exact",
    "leading_comment_hides_body_refuted"
   ],
   "note": "for any callback sequence in which html5ever hands over detached nodes that are not above their target; the choice of the root is shown to hide the body after a leading comment"
  },
  {
   "property": "C38",
   "status": "proved",
   "theorems": [
    "parser_input_keeps_text",
    "doctype_reported",
    "doctype_exact",
    "structure_detection_refuted"
   ],
   "note": ""
  },
  {
   "property": "C39",
   "status": "proved",
   "theorems": [
    "browser_outside_untouched",
    "browser_body_kept",
    "browser_remove_root_refuted"
   ],
   "note": ""
  },
  {
   "property": "C40",
   "status": "proved",
   "theorems": [
    "browser_converges",
    "browser_converges_wire"
   ],
   "note": "assumes that the browser's parser gives the same body nodes as the server's"
  },
  {
   "property": "C41",
   "status": "proved",
   "theorems": [
    "attribute_changes"
   ],
   "note": ""
  },
  {
   "property": "C42",
   "status": "proved",
   "theorems": [
    "empty_diff",
    "empty_diff_plain"
   ],
   "note": "the attributes of the old body do not enter the diff (F1)"
  },
  {
   "property": "C43",
   "status": "proved",
   "theorems": [
    "parse_proper",
    "diff_html_total",
    "diff_html_self",
    "diff_html_roundtrip"
   ],
   "note": "html5ever is represented by its contract (hypothesis all_well_behaved)"
  },
  {
   "property": "C44",
   "status": "proved",
   "theorems": [
    "serialization_grammar",
    "body_serialization_grammar",
    "plain_text_elements_refuted"
   ],
   "note": "that the grammar escapes texts which HTML parsers read without entities is exhibited"
  },
  {
   "property": "C45",
   "status": "proved",
   "theorems": [
    "browser_total",
    "browser_empty_remove_refuted"
   ],
   "note": "the DOM operations follow the DOM standard (trusted, see DESIGN.md)"
  },
  {
   "property": "C46",
   "status": "proved",
   "theorems": [
    "links_faithful",
    "links_consistent",
    "orphan_siblings_refuted"
   ],
   "note": "indextree is an external crate; its link updates are modelled after its published sources. Beside a node without parent the two representations differ (witness)"
  },
  {
   "property": "C47",
   "status": "proved",
   "theorems": [
    "new_document",
    "api_keeps_tree",
    "api_documents_diff",
    "api_panics_exactly",
    "api_queries",
    "api_effects",
    "api_builds",
    "api_cycle_refuted",
    "api_text_parent_refuted"
   ],
   "note": "the two excluded uses (insertion below an own descendant, children of a text) are accepted by the code and exhibited"
  },
  {
   "property": "C48",
   "status": "proved",
   "theorems": [
    "opaque_content_kept",
    "opaque_content_kept_browser",
    "session_converges",
    "session_converges_templated",
    "opaque_content_kept_without_agreement_refuted"
   ],
   "note": "in the domain of C01; opaque elements are matched with opaque elements only (without that refuted by a witness)"
  },
  {
   "property": "C49",
   "status": "proved",
   "theorems": [
    "matched_nodes_keep_identity"
   ],
   "note": "same domain as C01; documents may contain empty opaque elements"
  },
  {
   "property": "C50",
   "status": "proved",
   "theorems": [
    "blob_roundtrip",
    "blob_roundtrip_exact",
    "blob_injective",
    "blob_truncated",
    "blob_trailing",
    "event_roundtrip",
    "blob_effect",
    "blob_effect_empty_prefix_refuted"
   ],
   "note": "facet-postcard is an external crate; the encoding is modelled after the postcard format"
  },
  {
   "property": "C51",
   "status": "proved",
   "theorems": [
    "patches_from_new_page",
    "patches_without_body",
    "patch_numbers_bounded",
    "patch_numbers_page",
    "patch_numbers_u32",
    "diff_survives_wire"
   ],
   "note": "the bound counts patches; fewer than 2^29 nodes and patches for the wire theorem"
  },
  {
   "property": "C52",
   "status": "proved",
   "theorems": [
    "slot_table",
    "slot_table_model",
    "slot_table_size"
   ],
   "note": ""
  },
  {
   "property": "C53",
   "status": "proved",
   "theorems": [
    "mount_patched",
    "mount_event",
    "by_id_local",
    "mount_attributes_refuted",
    "mount_inside_body_refuted"
   ],
   "note": "querySelector is represented by its contract local_selector, proved for #id"
  },
  {
   "property": "C54",
   "status": "proved",
   "theorems": [
    "mounted_session_converges",
    "missed_event_refuted"
   ],
   "note": "events arrive in order while connected, and not otherwise"
  },
  {
   "property": "C55",
   "status": "proved",
   "theorems": [
    "backoff_times",
    "backoff_bounds"
   ],
   "note": ""
  },
  {
   "property": "C56",
   "status": "proved",
   "theorems": [
    "loader_literals",
    "loader_ends",
    "loader_quote_refuted",
    "loader_end_refuted"
   ],
   "note": ""
  },
  {
   "property": "C57",
   "status": "proved",
   "theorems": [
    "any_patches_event",
    "any_stream"
   ],
   "note": "except patches that remove the mount point itself, see browser_remove_root_refuted and browser_empty_remove_refuted"
  },
  {
   "property": "C58",
   "status": "proved",
   "theorems": [
    "tree_api",
    "trees_compared",
    "root_never_inserted_refuted",
    "emptied_root_refuted",
    "text_removed_refuted"
   ],
   "note": ""
  },
  {
   "property": "C59",
   "status": "proved",
   "theorems": [
    "equal_trees_no_edits",
    "self_no_edits",
    "no_props_no_edits",
    "threshold_above_one_refuted"
   ],
   "note": ""
  },
  {
   "property": "C60",
   "status": "proved",
   "theorems": [
    "diffable_table",
    "recompute_table",
    "diffable_merkle",
    "caches_transparent"
   ],
   "note": ""
  },
  {
   "property": "C61",
   "status": "proved",
   "theorems": [
    "hash_input",
    "writes_no_collision",
    "diff_roundtrip_writes",
    "tag_hash_refuted",
    "short_tags_distinct",
    "other_tags"
   ],
   "note": "tags may collide: tag_hash_refuted"
  },
  {
   "property": "C62",
   "status": "proved",
   "theorems": [
    "diff_texts_total",
    "text_client_converges",
    "text_browser_converges",
    "text_session_converges"
   ],
   "note": "in the domain of C01, html5ever by contract"
  },
  {
   "property": "C63",
   "status": "proved",
   "theorems": [
    "edits_in_place",
    "texts_in_place",
    "edits_in_place_opaque_refuted",
    "edits_in_place_twins_refuted",
    "texts_in_place_body_attrs_refuted",
    "texts_in_place_short_refuted"
   ],
   "note": "order of the patches not stated (permutation)"
  },
  {
   "property": "C64",
   "status": "proved",
   "theorems": [
    "characters_and_bytes",
    "stem_of_tendril",
    "stem_is_its_text",
    "owned_patches",
    "owned_reads",
    "borrowed_patches",
    "stem_of_empty_tendril_refuted"
   ],
   "note": "memory model: addresses to bytes; lifetimes not modelled"
  },
  {
   "property": "C65",
   "status": "proved",
   "theorems": [
    "matched_for_a_reason",
    "kept_as",
    "edited_attributes",
    "no_match_missed",
    "no_content_match_missed"
   ],
   "note": ""
  },
  {
   "property": "C66",
   "status": "proved",
   "theorems": [
    "matched_nodes_keep_identity_browser",
    "edits_in_place_browser",
    "texts_in_place_browser"
   ],
   "note": "names as for C33; conditions of C63"
  },
  {
   "property": "C67",
   "status": "proved",
   "theorems": [
    "clear_change_patches",
    "clear_change_patches_browser",
    "twins_unchanged_refuted"
   ],
   "note": "no opaque elements; a kept element with changed content must keep its index"
  },
  {
   "property": "C68",
   "status": "proved",
   "theorems": [
    "browser_children_bounded",
    "update_children_bounded",
    "session_children_bounded",
    "native_children_bounded_refuted"
   ],
   "note": "names as for C33; pages as for C01; false for the native document (F43)"
  },
  {
   "property": "C69",
   "status": "proved",
   "theorems": [
    "payload_bounded",
    "payload_without_body",
    "payload_nested_opaque_refuted"
   ],
   "note": "new page without opaque elements; false for nested elements that become opaque (F44)"
  },
  {
   "property": "C70",
   "status": "proved",
   "theorems": [
    "scores_compare",
    "scores_compare_refuted",
    "matching_floats",
    "diff_floats"
   ],
   "note": "fewer than 2^25 nodes; the comparison fails from counts of 2^27 on (witness)"
  },
  {
   "property": "C71",
   "status": "proved",
   "theorems": [
    "fallback_markup",
    "inserted_content_shown",
    "fallback_void_refuted",
    "fallback_script_refuted",
    "fallback_update_refuted"
   ],
   "note": "browser's parser by contract; false for void elements and scripts with escapes (F45)"
  },
  {
   "property": "C72",
   "status": "proved",
   "theorems": [
    "browser_incremental",
    "browser_one_by_one",
    "applied_count",
    "postcard_same",
    "postcard_truncated",
    "set_body_content",
    "browser_test_cycle",
    "browser_json_cycle",
    "browser_incremental_own_slots_refuted",
    "browser_incremental_body_refuted"
   ],
   "note": "false when each call has its own slots, and when a call removes the body; JSON codec by contract"
  },
  {
   "property": "C73",
   "status": "proved",
   "theorems": [
    "addressing_exact",
    "patch_refused",
    "content_patches",
    "remove_patch",
    "insert_patch",
    "move_patch"
   ],
   "note": "moves into the moved node excluded; OpaqueChanged is C35"
  },
  {
   "property": "C74",
   "status": "proved",
   "theorems": [
    "browser_addressing",
    "browser_refused",
    "browser_content",
    "browser_update",
    "browser_remove",
    "browser_insert",
    "browser_insert_shown",
    "browser_move",
    "browser_move_below",
    "set_text_element_refuted"
   ],
   "note": "agreement with the native applier fails for SetText of an element (F46)"
  },
  {
   "property": "C75",
   "status": "proved",
   "theorems": [
    "patches_see_the_page",
    "patches_see_the_page_html",
    "browser_sees_the_page",
    "event_sees_the_page",
    "tabs_agree"
   ],
   "note": "selectors must find elements by what the page shows (parameter)"
  },
  {
   "property": "C76",
   "status": "proved",
   "theorems": [
    "diff_sees_the_pages",
    "diff_after_patches",
    "script_under_names"
   ],
   "note": "the Rust hash maps and sets are used for lookup, membership and counts only, so their iteration order does not matter"
  },
  {
   "property": "C77",
   "status": "proved",
   "theorems": [
    "recording_is_transparent",
    "each_pair_once",
    "dice_only_for",
    "dice_recorded",
    "equal_roots_one_candidate",
    "candidates_quadratic",
    "position_cost"
   ],
   "note": "the candidate pairs are not counted by the Rust code; the Dice calls and sibling scans are"
  },
  {
   "property": "C78",
   "status": "proved",
   "theorems": [
    "trace_is_application",
    "tree_compared",
    "trees_equal",
    "trees_equal_refuted",
    "attributes_shown",
    "trace_exists",
    "parity_target_blind",
    "parity_traces_differ",
    "browser_trace_is_application",
    "traces_same_exact",
    "failed_trees_unseen",
    "captured_is_applied",
    "structured_passed",
    "apply_passed"
   ],
   "note": "a finding about the fuzz target (F47); that fragment documents have no body is html5ever's behaviour (example)"
  },
  {
   "property": "C79",
   "status": "proved",
   "theorems": [
    "same_trees_step_by_step",
    "same_pages_afterwards",
    "unsuited_refuted"
   ],
   "note": "for any patch list that suits the page; the browser DOM is modelled after the standard"
  },
  {
   "property": "C80",
   "status": "proved",
   "theorems": [
    "diff_step_by_step",
    "apply_target_passes"
   ],
   "note": "domain of C01 (hashes that do not collide on the two documents, no cyclic exchange of parents, no change inside opaque elements); names as a browser keeps them for the first part; the browser DOM is modelled after the standard"
  },
  {
   "property": "C81",
   "status": "proved",
   "theorems": [
    "diff_page",
    "diff_page_html",
    "structured_target_verdict",
    "structured_target_head_refuted"
   ],
   "note": "domain of C01 (hashes that do not collide on the two documents, no cyclic exchange of parents, no change inside opaque elements); the target is modelled from the parsed documents on"
  },
  {
   "property": "C82",
   "status": "proved",
   "theorems": [
    "white_space_exact",
    "digit_exact",
    "alnum_exact",
    "ends_exact",
    "admitted_brackets",
    "nested_brackets",
    "custom_elements",
    "admitted_words",
    "admitted_headings",
    "admitted_charrefs",
    "decimal_charref",
    "hex_charref",
    "hex_charref_refuted",
    "find_bytes",
    "get_parts",
    "prepared_pair",
    "derived_text",
    "admitted_characters",
    "plain_admitted",
    "admitted_foreign",
    "closed_headings",
    "filter_gaps_refuted"
   ],
   "note": "std::str::from_utf8 is a variable assumed to give the characters of its bytes; the loops are modelled on characters"
  },
  {
   "property": "C83",
   "status": "proved",
   "theorems": [
    "native_memory",
    "update_memory",
    "far_patch_fills",
    "memory_by_bytes_refuted"
   ],
   "note": "the bound for a diff is for plain pages as in C68"
  },
  {
   "property": "C84",
   "status": "proved",
   "theorems": [
    "chaos_texts",
    "chaos_nodes",
    "chaos_never_opaque",
    "chaos_unescaped",
    "chaos_pages_plain"
   ],
   "note": "the draws of the crate arbitrary are variables with the stated contract; derived instances modelled as name, then optional value, and variant 0-2"
  },
  {
   "property": "C85",
   "status": "proved",
   "theorems": [
    "filter_exact",
    "accepted_without_parser",
    "attr_name_exact",
    "tag_name_exact",
    "accepted_names_dom",
    "accepted_names_refuted"
   ],
   "note": "the DOM rules for names are stated from the standards; accepted_without_parser is about contents whose names have no prefix"
  }
 ]
}