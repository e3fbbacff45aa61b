(** The project's own tests, run on the model: the cases of
    hotmeal/tests/roundtrip-cases, of hotmeal-wasm/tests/wasm.spec.ts and the unit
    tests of hotmeal/src/diff.rs and hotmeal/tests that compare pages.

    html5ever is not modelled: the pages are given as the trees that it makes of
    the texts of the tests (for the malformed ones: as the HTML standard says), and
    what an opaque element is filled with is looked up in a table. *)
From Verif Require Import Base Arena Matching Chawathe Dom HtmlDiff Sink Page Browser WasmApi CinTree Server Loader Wire Instances PropBrowser.
Local Open Scope string_scope.

Record own_test := mkTest { old_page : list htree; new_page : list htree; opaque_contents : list (list htree) }.

(** The tree whose serialization a text is. *)
Definition ser_trees (ts : list htree) : string :=
  match get_body_inner_html (mk_doc [] ts) with Val s => s | _ => EmptyString end.
Definition lookup_parser (l : list (list htree)) (s : string) : list htree :=
  match find (fun ts => String.eqb (ser_trees ts) s) l with Some ts => ts | None => [] end.

Definition test_patches (t : own_test) : outcome (list patch) :=
  pdiff (mk_doc [] (old_page t)) (mk_doc [] (new_page t)).

(** roundtrip.rs:17-56: the document after the patches is the new one, as HTML. *)
Definition native_passes (t : own_test) : bool :=
  match test_patches t with
  | Val ps =>
      match apply_patches (lookup_parser (opaque_contents t)) (mk_doc [] (old_page t)) ps with
      | (d, Val _) => match to_html d, to_html (mk_doc [] (new_page t)) with
                      | Some x, Some y => String.eqb x y
                      | _, _ => false
                      end
      | _ => false
      end
  | _ => false
  end.

(** wasm.spec.ts:297-341: likewise in the browser.  The comparison is made
    after another parse of the HTML, here on the HTML itself. *)
Definition browser_passes (t : own_test) : bool :=
  match test_patches t with
  | Val ps =>
      match apply_patches_body ex_name ex_name (fun s => map btree (lookup_parser (opaque_contents t) s))
              (mk_doc [] (map btree (old_page t))) ps with
      | (d, Val _) => match get_body_inner_html d with
                      | Val x => String.eqb x (ser_trees (new_page t))
                      | _ => false
                      end
      | _ => false
      end
  | _ => false
  end.

(** roundtrip-cases/add-second-p-same-text.html *)
Definition case_add_second_p_same_text : own_test := mkTest
  [el "p" [tx " "]]
  [el "p" [tx " "]; el_a "p" [ex_attr "class" "a"] [tx " "]]
  [].

(** roundtrip-cases/attr-add.html *)
Definition case_attr_add : own_test := mkTest
  [el "div" [tx "Content"]]
  [el_a "div" [ex_attr "id" "main"] [tx "Content"]]
  [].

(** roundtrip-cases/attr-change.html *)
Definition case_attr_change : own_test := mkTest
  [el_a "div" [ex_attr "class" "old"] [tx "Content"]]
  [el_a "div" [ex_attr "class" "new"] [tx "Content"]]
  [].

(** roundtrip-cases/attr-remove.html *)
Definition case_attr_remove : own_test := mkTest
  [el_a "div" [ex_attr "id" "main"] [tx "Content"]]
  [el "div" [tx "Content"]]
  [].

(** roundtrip-cases/body-text-change.html *)
Definition case_body_text_change : own_test := mkTest
  [tx "0"]
  [tx "A"]
  [].

(** roundtrip-cases/empty-div-add-child.html *)
Definition case_empty_div_add_child : own_test := mkTest
  [el "div" []]
  [el_a "div" [ex_attr "id" "a"] [el "p" [tx "a"]]]
  [].

(** roundtrip-cases/fuzz-card-restructure.html *)
Definition case_fuzz_card_restructure : own_test := mkTest
  [el_a "div" [ex_attr "class" "card"] [el_a "div" [ex_attr "class" "card-header"] [el "h2" [tx "Card Title"]]; el_a "div" [ex_attr "class" "card-body"] [el "p" [tx "Card content goes here."]; el "button" [tx "Action"]]]]
  [el_a "div" [ex_attr "class" "card"] [el "strong" [el "div" [el "strong" [tx "sibling"]; el "div" [el "h2" [tx "Card Title"]]]]; el_a "div" [ex_attr "class" "card-body"] [el "p" [tx "Card content goes here."]]]]
  [].

(** roundtrip-cases/identical.html *)
Definition case_identical : own_test := mkTest
  [el "p" [tx "Same content"]]
  [el "p" [tx "Same content"]]
  [].

(** roundtrip-cases/insert-at-end.html *)
Definition case_insert_at_end : own_test := mkTest
  [el "p" [tx "First"]]
  [el "p" [tx "First"]; el "p" [tx "Second"]]
  [].

(** roundtrip-cases/insert-at-start.html *)
Definition case_insert_at_start : own_test := mkTest
  [el "p" [tx "A"]; el "p" [tx "B"]]
  [el "p" [tx "X"]; el "p" [tx "A"]; el "p" [tx "B"]]
  [].

(** roundtrip-cases/insert-in-middle.html *)
Definition case_insert_in_middle : own_test := mkTest
  [el "p" [tx "A"]; el "p" [tx "B"]]
  [el "p" [tx "A"]; el "p" [tx "X"]; el "p" [tx "B"]]
  [].

(** roundtrip-cases/issue-1846-nested-divs.html *)
Definition case_issue_1846_nested_divs : own_test := mkTest
  [el "div" [el "div" []]]
  [tx "A"; el "div" [el "div" [tx " "]]]
  [].

(** roundtrip-cases/mixed-changes.html *)
Definition case_mixed_changes : own_test := mkTest
  [el_a "div" [ex_attr "class" "box"] [el "p" [tx "One"]; el "p" [tx "Two"]]]
  [el_a "div" [ex_attr "class" "container"] [el "p" [tx "One"]; el "p" [tx "Modified"]; el "p" [tx "Three"]]]
  [].

(** roundtrip-cases/move-first-to-end.html *)
Definition case_move_first_to_end : own_test := mkTest
  [el "p" [tx "A"]; el "p" [tx "B"]; el "p" [tx "C"]]
  [el "p" [tx "B"]; el "p" [tx "C"]; el "p" [tx "A"]]
  [].

(** roundtrip-cases/nested-text-change.html *)
Definition case_nested_text_change : own_test := mkTest
  [el "div" [el "span" [tx "Hello"]]]
  [el "div" [el "span" [tx "World"]]]
  [].

(** roundtrip-cases/newline-in-text.html *)
Definition case_newline_in_text : own_test := mkTest
  [el "my-header" [tx "
      App Title
    "]]
  [el "my-header" [tx "
      中文App Title
    "]]
  [].

(** roundtrip-cases/newlines-between-elements.html *)
Definition case_newlines_between_elements : own_test := mkTest
  [el "ul" [tx "
    "; el "li" [tx "Item A"]; tx "
    "; el "li" [tx "Item B"]; tx "
"]]
  [el "ul" [tx "
    "; el "li" [tx "Item A"]; tx "
    "; el_a "li" [ex_attr "class" "hidden"] [tx "Item B"]; tx "
"]]
  [].

(** roundtrip-cases/opaque-content-changed.html *)
Definition case_opaque_content_changed : own_test := mkTest
  [el_a "div" [ex_attr "data-hotmeal-opaque" ""] [el "p" [tx "old content"]]]
  [el_a "div" [ex_attr "data-hotmeal-opaque" ""] [el "p" [tx "new content"]]]
  [[el "p" [tx "new content"]]].

(** roundtrip-cases/opaque-deeply-nested-change.html *)
Definition case_opaque_deeply_nested_change : own_test := mkTest
  [el_a "div" [ex_attr "data-hotmeal-opaque" ""] [el_a "div" [ex_attr "class" "wrapper"] [el "ul" [el "li" [tx "item 1"]; el "li" [tx "item 2"]]]]]
  [el_a "div" [ex_attr "data-hotmeal-opaque" ""] [el_a "div" [ex_attr "class" "wrapper"] [el "ul" [el "li" [tx "item A"]; el "li" [tx "item B"]; el "li" [tx "item C"]]]]]
  [[el_a "div" [ex_attr "class" "wrapper"] [el "ul" [el "li" [tx "item A"]; el "li" [tx "item B"]; el "li" [tx "item C"]]]]].

(** roundtrip-cases/opaque-multiple-siblings.html *)
Definition case_opaque_multiple_siblings : own_test := mkTest
  [el_a "div" [ex_attr "data-hotmeal-opaque" ""] [el "p" [tx "chart 1"]]; el "p" [tx "text between"]; el_a "div" [ex_attr "data-hotmeal-opaque" ""] [el "p" [tx "chart 2"]]]
  [el_a "div" [ex_attr "data-hotmeal-opaque" ""] [HElem "svg" NsSvg [] [tx "replaced 1"]]; el "p" [tx "updated text"]; el_a "div" [ex_attr "data-hotmeal-opaque" ""] [HElem "svg" NsSvg [] [tx "replaced 2"]]]
  [[HElem "svg" NsSvg [] [tx "replaced 1"]]; [HElem "svg" NsSvg [] [tx "replaced 2"]]].

(** roundtrip-cases/opaque-structural-change.html *)
Definition case_opaque_structural_change : own_test := mkTest
  [el_a "div" [ex_attr "data-hotmeal-opaque" ""] [el_a "pre" [ex_attr "class" "mermaid"] [tx "graph TD; A-->B;"]]]
  [el_a "div" [ex_attr "data-hotmeal-opaque" ""] [HElem "svg" NsSvg [ex_attr "xmlns" "http://www.w3.org/2000/svg"; ex_attr "width" "100"; ex_attr "height" "100"] [HElem "rect" NsSvg [ex_attr "x" "10"; ex_attr "y" "10"] []]]]
  [[HElem "svg" NsSvg [ex_attr "xmlns" "http://www.w3.org/2000/svg"; ex_attr "width" "100"; ex_attr "height" "100"] [HElem "rect" NsSvg [ex_attr "x" "10"; ex_attr "y" "10"] []]]].

(** roundtrip-cases/opaque-unchanged.html *)
Definition case_opaque_unchanged : own_test := mkTest
  [el_a "div" [ex_attr "data-hotmeal-opaque" ""] [el "p" [tx "hello"]]]
  [el_a "div" [ex_attr "data-hotmeal-opaque" ""] [el "p" [tx "hello"]]]
  [[el "p" [tx "hello"]]].

(** roundtrip-cases/opaque-with-sibling-changes.html *)
Definition case_opaque_with_sibling_changes : own_test := mkTest
  [el_a "div" [ex_attr "data-hotmeal-opaque" ""] [el "p" [tx "old"]]; el "span" [tx "before"]]
  [el_a "div" [ex_attr "data-hotmeal-opaque" ""] [el "p" [tx "new"]]; el "span" [tx "after"]]
  [[el "p" [tx "new"]]].

(** roundtrip-cases/remove-from-end.html *)
Definition case_remove_from_end : own_test := mkTest
  [el "p" [tx "First"]; el "p" [tx "Second"]]
  [el "p" [tx "First"]]
  [].

(** roundtrip-cases/remove-from-middle.html *)
Definition case_remove_from_middle : own_test := mkTest
  [el "p" [tx "A"]; el "p" [tx "B"]; el "p" [tx "C"]]
  [el "p" [tx "A"]; el "p" [tx "C"]]
  [].

(** roundtrip-cases/remove-from-start.html *)
Definition case_remove_from_start : own_test := mkTest
  [el "p" [tx "A"]; el "p" [tx "B"]; el "p" [tx "C"]]
  [el "p" [tx "B"]; el "p" [tx "C"]]
  [].

(** roundtrip-cases/replace-div-with-p-attrs.html *)
Definition case_replace_div_with_p_attrs : own_test := mkTest
  [el "div" []]
  [el_a "p" [ex_attr "class" "a"] [tx " "]]
  [].

(** roundtrip-cases/replace-element-type.html *)
Definition case_replace_element_type : own_test := mkTest
  [el "p" [tx "a"]]
  [el "div" []]
  [].

(** roundtrip-cases/swap-different-types.html *)
Definition case_swap_different_types : own_test := mkTest
  [el "span" [tx "A"]; el "div" [tx "B"]]
  [el "div" [tx "B"]; el "span" [tx "A"]]
  [].

(** roundtrip-cases/swap-two.html *)
Definition case_swap_two : own_test := mkTest
  [el "p" [tx "A"]; el "p" [tx "B"]]
  [el "p" [tx "B"]; el "p" [tx "A"]]
  [].

(** roundtrip-cases/text-change.html *)
Definition case_text_change : own_test := mkTest
  [el "p" [tx "Hello"]]
  [el "p" [tx "Goodbye"]]
  [].

(** roundtrip-cases/text-moves-into-div.html *)
Definition case_text_moves_into_div : own_test := mkTest
  [tx "0"; el "div" []]
  [el "div" [tx "0"]]
  [].

(** roundtrip-cases/text-with-newlines.html *)
Definition case_text_with_newlines : own_test := mkTest
  [el "my-header" [tx "
      App Title
    "]]
  [el "my-header" [tx "
      New Title
    "]]
  [].

(** roundtrip-cases/wrap-in-div.html *)
Definition case_wrap_in_div : own_test := mkTest
  [el "p" [tx "A"]]
  [el "div" [el "p" [tx "a"]; el "p" [tx "A"]]]
  [].

(** wasm.spec.ts *)
Definition wasm_simple_text_change : own_test := mkTest
  [el "p" [tx "Hello"]]
  [el "p" [tx "World"]]
  [].

(** wasm.spec.ts *)
Definition wasm_text_in_div : own_test := mkTest
  [el "div" [tx "Old text"]]
  [el "div" [tx "New text"]]
  [].

(** wasm.spec.ts *)
Definition wasm_add_class : own_test := mkTest
  [el "div" [tx "Content"]]
  [el_a "div" [ex_attr "class" "highlight"] [tx "Content"]]
  [].

(** wasm.spec.ts *)
Definition wasm_change_class : own_test := mkTest
  [el_a "div" [ex_attr "class" "old"] [tx "Content"]]
  [el_a "div" [ex_attr "class" "new"] [tx "Content"]]
  [].

(** wasm.spec.ts *)
Definition wasm_remove_class : own_test := mkTest
  [el_a "div" [ex_attr "class" "remove-me"] [tx "Content"]]
  [el "div" [tx "Content"]]
  [].

(** wasm.spec.ts *)
Definition wasm_insert_element_at_end : own_test := mkTest
  [el "p" [tx "First"]]
  [el "p" [tx "First"]; el "p" [tx "Second"]]
  [].

(** wasm.spec.ts *)
Definition wasm_insert_element_at_start : own_test := mkTest
  [el "p" [tx "Second"]]
  [el "p" [tx "First"]; el "p" [tx "Second"]]
  [].

(** wasm.spec.ts *)
Definition wasm_insert_element_in_middle : own_test := mkTest
  [el "p" [tx "First"]; el "p" [tx "Third"]]
  [el "p" [tx "First"]; el "p" [tx "Second"]; el "p" [tx "Third"]]
  [].

(** wasm.spec.ts *)
Definition wasm_remove_element_from_end : own_test := mkTest
  [el "p" [tx "First"]; el "p" [tx "Second"]]
  [el "p" [tx "First"]]
  [].

(** wasm.spec.ts *)
Definition wasm_remove_element_from_start : own_test := mkTest
  [el "p" [tx "First"]; el "p" [tx "Second"]]
  [el "p" [tx "Second"]]
  [].

(** wasm.spec.ts *)
Definition wasm_fill_empty_div : own_test := mkTest
  [el "div" []]
  [el "div" [tx "Content"]]
  [].

(** wasm.spec.ts *)
Definition wasm_drain_div_content : own_test := mkTest
  [el "div" [tx "Content"]]
  [el "div" []]
  [].

(** wasm.spec.ts *)
Definition wasm_text_moves_into_div : own_test := mkTest
  [tx "Text"; el "div" []]
  [el "div" [tx "Text"]]
  [].

(** wasm.spec.ts *)
Definition wasm_nested_text_change : own_test := mkTest
  [el "div" [el "p" [tx "Old"]]]
  [el "div" [el "p" [tx "New"]]]
  [].

(** wasm.spec.ts *)
Definition wasm_deeply_nested : own_test := mkTest
  [el "div" [el "div" [el "div" [tx "Deep"]]]]
  [el "div" [el "div" [el "div" [tx "Changed"]]]]
  [].

(** wasm.spec.ts *)
Definition wasm_multiple_text_changes : own_test := mkTest
  [el "p" [tx "A"]; el "p" [tx "B"]; el "p" [tx "C"]]
  [el "p" [tx "X"]; el "p" [tx "Y"]; el "p" [tx "Z"]]
  [].

(** wasm.spec.ts *)
Definition wasm_swap_siblings : own_test := mkTest
  [el "p" [tx "First"]; el "p" [tx "Second"]]
  [el "p" [tx "Second"]; el "p" [tx "First"]]
  [].

(** wasm.spec.ts *)
Definition wasm_text_and_elements : own_test := mkTest
  [tx "Text"; el "span" [tx "Span"]]
  [el "span" [tx "Span"]; tx "Text"]
  [].

(** wasm.spec.ts *)
Definition wasm_whitespace_text_change : own_test := mkTest
  [el "p" [tx " "; el "em" [tx "Yes"]]]
  [el "p" [tx " "; el "em" [tx "No"]]]
  [].

(** wasm.spec.ts *)
Definition wasm_newlines_between_elements : own_test := mkTest
  [el "ul" [tx "
    "; el "li" [tx "Item A"]; tx "
    "; el "li" [tx "Item B"]; tx "
"]]
  [el "ul" [tx "
    "; el "li" [tx "Item A"]; tx "
    "; el_a "li" [ex_attr "class" "hidden"] [tx "Item B"]; tx "
"]]
  [].

(** wasm.spec.ts *)
Definition wasm_svg_simple_circle : own_test := mkTest
  [HElem "svg" NsSvg [ex_attr "viewBox" "0 0 100 100"] [HElem "circle" NsSvg [ex_attr "cx" "50"; ex_attr "cy" "50"; ex_attr "r" "40"] []]]
  [HElem "svg" NsSvg [ex_attr "viewBox" "0 0 100 100"] [HElem "circle" NsSvg [ex_attr "cx" "50"; ex_attr "cy" "50"; ex_attr "r" "30"] []]]
  [].

(** wasm.spec.ts *)
Definition wasm_svg_add_element : own_test := mkTest
  [HElem "svg" NsSvg [ex_attr "viewBox" "0 0 100 100"] [HElem "circle" NsSvg [ex_attr "cx" "50"; ex_attr "cy" "50"; ex_attr "r" "40"] []]]
  [HElem "svg" NsSvg [ex_attr "viewBox" "0 0 100 100"] [HElem "circle" NsSvg [ex_attr "cx" "50"; ex_attr "cy" "50"; ex_attr "r" "40"] []; HElem "rect" NsSvg [ex_attr "x" "10"; ex_attr "y" "10"; ex_attr "width" "20"; ex_attr "height" "20"] []]]
  [].

(** wasm.spec.ts *)
Definition wasm_svg_remove_element : own_test := mkTest
  [HElem "svg" NsSvg [ex_attr "viewBox" "0 0 100 100"] [HElem "circle" NsSvg [ex_attr "cx" "50"; ex_attr "cy" "50"; ex_attr "r" "40"] []; HElem "rect" NsSvg [ex_attr "x" "10"; ex_attr "y" "10"; ex_attr "width" "20"; ex_attr "height" "20"] []]]
  [HElem "svg" NsSvg [ex_attr "viewBox" "0 0 100 100"] [HElem "circle" NsSvg [ex_attr "cx" "50"; ex_attr "cy" "50"; ex_attr "r" "40"] []]]
  [].

(** wasm.spec.ts *)
Definition wasm_svg_change_fill : own_test := mkTest
  [HElem "svg" NsSvg [ex_attr "viewBox" "0 0 100 100"] [HElem "circle" NsSvg [ex_attr "fill" "red"; ex_attr "cx" "50"; ex_attr "cy" "50"; ex_attr "r" "40"] []]]
  [HElem "svg" NsSvg [ex_attr "viewBox" "0 0 100 100"] [HElem "circle" NsSvg [ex_attr "fill" "blue"; ex_attr "cx" "50"; ex_attr "cy" "50"; ex_attr "r" "40"] []]]
  [].

(** wasm.spec.ts *)
Definition wasm_svg_add_fill : own_test := mkTest
  [HElem "svg" NsSvg [ex_attr "viewBox" "0 0 100 100"] [HElem "circle" NsSvg [ex_attr "cx" "50"; ex_attr "cy" "50"; ex_attr "r" "40"] []]]
  [HElem "svg" NsSvg [ex_attr "viewBox" "0 0 100 100"] [HElem "circle" NsSvg [ex_attr "cx" "50"; ex_attr "cy" "50"; ex_attr "r" "40"; ex_attr "fill" "green"] []]]
  [].

(** wasm.spec.ts *)
Definition wasm_svg_with_group : own_test := mkTest
  [HElem "svg" NsSvg [ex_attr "viewBox" "0 0 100 100"] [HElem "g" NsSvg [] [HElem "circle" NsSvg [ex_attr "cx" "50"; ex_attr "cy" "50"; ex_attr "r" "40"] []]]]
  [HElem "svg" NsSvg [ex_attr "viewBox" "0 0 100 100"] [HElem "g" NsSvg [ex_attr "transform" "rotate(45)"] [HElem "circle" NsSvg [ex_attr "cx" "50"; ex_attr "cy" "50"; ex_attr "r" "40"] []]]]
  [].

(** wasm.spec.ts *)
Definition wasm_svg_path_change : own_test := mkTest
  [HElem "svg" NsSvg [ex_attr "viewBox" "0 0 100 100"] [HElem "path" NsSvg [ex_attr "d" "M10 10 L90 90"] []]]
  [HElem "svg" NsSvg [ex_attr "viewBox" "0 0 100 100"] [HElem "path" NsSvg [ex_attr "d" "M10 10 L50 90 L90 10"] []]]
  [].

(** wasm.spec.ts *)
Definition wasm_svg_text_change : own_test := mkTest
  [HElem "svg" NsSvg [ex_attr "viewBox" "0 0 100 100"] [HElem "text" NsSvg [ex_attr "x" "50"; ex_attr "y" "50"] [tx "Hello"]]]
  [HElem "svg" NsSvg [ex_attr "viewBox" "0 0 100 100"] [HElem "text" NsSvg [ex_attr "x" "50"; ex_attr "y" "50"] [tx "World"]]]
  [].

(** wasm.spec.ts *)
Definition wasm_svg_viewBox_change : own_test := mkTest
  [HElem "svg" NsSvg [ex_attr "viewBox" "0 0 100 100"] [HElem "circle" NsSvg [ex_attr "cx" "50"; ex_attr "cy" "50"; ex_attr "r" "40"] []]]
  [HElem "svg" NsSvg [ex_attr "viewBox" "0 0 200 200"] [HElem "circle" NsSvg [ex_attr "cx" "50"; ex_attr "cy" "50"; ex_attr "r" "40"] []]]
  [].

(** wasm.spec.ts *)
Definition wasm_svg_nested_groups : own_test := mkTest
  [HElem "svg" NsSvg [ex_attr "viewBox" "0 0 100 100"] [HElem "g" NsSvg [ex_attr "id" "outer"] [HElem "g" NsSvg [ex_attr "id" "inner"] [HElem "circle" NsSvg [ex_attr "cx" "50"; ex_attr "cy" "50"; ex_attr "r" "10"] []]]]]
  [HElem "svg" NsSvg [ex_attr "viewBox" "0 0 100 100"] [HElem "g" NsSvg [ex_attr "id" "outer"] [HElem "g" NsSvg [ex_attr "id" "inner"] [HElem "circle" NsSvg [ex_attr "cx" "50"; ex_attr "cy" "50"; ex_attr "r" "20"] []]]]]
  [].

(** wasm.spec.ts *)
Definition wasm_svg_defs_and_use : own_test := mkTest
  [HElem "svg" NsSvg [ex_attr "viewBox" "0 0 100 100"] [HElem "defs" NsSvg [] [HElem "circle" NsSvg [ex_attr "id" "dot"; ex_attr "r" "5"] []]; HElem "use" NsSvg [ex_attr "href" "#dot"; ex_attr "x" "25"; ex_attr "y" "25"] []]]
  [HElem "svg" NsSvg [ex_attr "viewBox" "0 0 100 100"] [HElem "defs" NsSvg [] [HElem "circle" NsSvg [ex_attr "id" "dot"; ex_attr "r" "5"] []]; HElem "use" NsSvg [ex_attr "href" "#dot"; ex_attr "x" "50"; ex_attr "y" "50"] []]]
  [].

(** wasm.spec.ts *)
Definition wasm_svg_gradient : own_test := mkTest
  [HElem "svg" NsSvg [ex_attr "viewBox" "0 0 100 100"] [HElem "defs" NsSvg [] [HElem "linearGradient" NsSvg [ex_attr "id" "g1"] [HElem "stop" NsSvg [ex_attr "offset" "0%"; ex_attr "stop-color" "red"] []]]; HElem "rect" NsSvg [ex_attr "fill" "url(#g1)"; ex_attr "width" "100"; ex_attr "height" "100"] []]]
  [HElem "svg" NsSvg [ex_attr "viewBox" "0 0 100 100"] [HElem "defs" NsSvg [] [HElem "linearGradient" NsSvg [ex_attr "id" "g1"] [HElem "stop" NsSvg [ex_attr "offset" "0%"; ex_attr "stop-color" "blue"] []]]; HElem "rect" NsSvg [ex_attr "fill" "url(#g1)"; ex_attr "width" "100"; ex_attr "height" "100"] []]]
  [].

(** wasm.spec.ts *)
Definition wasm_inline_svg_in_div : own_test := mkTest
  [el_a "div" [ex_attr "class" "icon"] [HElem "svg" NsSvg [ex_attr "viewBox" "0 0 24 24"] [HElem "path" NsSvg [ex_attr "d" "M12 2L2 22h20z"] []]]]
  [el_a "div" [ex_attr "class" "icon active"] [HElem "svg" NsSvg [ex_attr "viewBox" "0 0 24 24"] [HElem "path" NsSvg [ex_attr "d" "M12 2L2 22h20z"; ex_attr "fill" "currentColor"] []]]]
  [].

(** wasm.spec.ts *)
Definition wasm_svg_with_html_siblings : own_test := mkTest
  [el "div" [el "span" [tx "Label"]; HElem "svg" NsSvg [ex_attr "viewBox" "0 0 24 24"] [HElem "circle" NsSvg [ex_attr "cx" "12"; ex_attr "cy" "12"; ex_attr "r" "10"] []]]]
  [el "div" [el "span" [tx "New Label"]; HElem "svg" NsSvg [ex_attr "viewBox" "0 0 24 24"] [HElem "circle" NsSvg [ex_attr "cx" "12"; ex_attr "cy" "12"; ex_attr "r" "8"] []]]]
  [].

(** wasm.spec.ts *)
Definition wasm_svg_multiple_shapes_reorder : own_test := mkTest
  [HElem "svg" NsSvg [ex_attr "viewBox" "0 0 100 100"] [HElem "circle" NsSvg [ex_attr "cx" "25"; ex_attr "cy" "25"; ex_attr "r" "20"] []; HElem "rect" NsSvg [ex_attr "x" "50"; ex_attr "y" "50"; ex_attr "width" "40"; ex_attr "height" "40"] []]]
  [HElem "svg" NsSvg [ex_attr "viewBox" "0 0 100 100"] [HElem "rect" NsSvg [ex_attr "x" "50"; ex_attr "y" "50"; ex_attr "width" "40"; ex_attr "height" "40"] []; HElem "circle" NsSvg [ex_attr "cx" "25"; ex_attr "cy" "25"; ex_attr "r" "20"] []]]
  [].

(** wasm.spec.ts *)
Definition wasm_custom_element_text_change : own_test := mkTest
  [el "my-component" [tx "Hello"]]
  [el "my-component" [tx "World"]]
  [].

(** wasm.spec.ts *)
Definition wasm_custom_element_add_attr : own_test := mkTest
  [el "my-component" [tx "Content"]]
  [el_a "my-component" [ex_attr "data-state" "active"] [tx "Content"]]
  [].

(** wasm.spec.ts *)
Definition wasm_custom_element_nested : own_test := mkTest
  [el "app-card" [el "app-header" [tx "Title"]]]
  [el "app-card" [el "app-header" [tx "New Title"]]]
  [].

(** wasm.spec.ts *)
Definition wasm_custom_element_with_slot : own_test := mkTest
  [el "my-dialog" [el_a "span" [ex_attr "slot" "title"] [tx "Old"]]]
  [el "my-dialog" [el_a "span" [ex_attr "slot" "title"] [tx "New"]]]
  [].

(** wasm.spec.ts *)
Definition wasm_data_attr_add : own_test := mkTest
  [el "div" [tx "Content"]]
  [el_a "div" [ex_attr "data-id" "123"] [tx "Content"]]
  [].

(** wasm.spec.ts *)
Definition wasm_data_attr_change : own_test := mkTest
  [el_a "div" [ex_attr "data-state" "inactive"] [tx "Content"]]
  [el_a "div" [ex_attr "data-state" "active"] [tx "Content"]]
  [].

(** wasm.spec.ts *)
Definition wasm_data_attr_remove : own_test := mkTest
  [el_a "div" [ex_attr "data-id" "123"; ex_attr "data-type" "user"] [tx "Content"]]
  [el_a "div" [ex_attr "data-id" "123"] [tx "Content"]]
  [].

(** wasm.spec.ts *)
Definition wasm_multiple_data_attrs : own_test := mkTest
  [el_a "button" [ex_attr "data-action" "click"; ex_attr "data-target" "#modal"] [tx "Open"]]
  [el_a "button" [ex_attr "data-action" "click"; ex_attr "data-target" "#modal"; ex_attr "data-loading" "true"] [tx "Open"]]
  [].

(** wasm.spec.ts *)
Definition wasm_boolean_disabled_add : own_test := mkTest
  [el "button" [tx "Click"]]
  [el_a "button" [ex_attr "disabled" ""] [tx "Click"]]
  [].

(** wasm.spec.ts *)
Definition wasm_boolean_disabled_remove : own_test := mkTest
  [el_a "button" [ex_attr "disabled" ""] [tx "Click"]]
  [el "button" [tx "Click"]]
  [].

(** wasm.spec.ts *)
Definition wasm_boolean_checked : own_test := mkTest
  [el_a "input" [ex_attr "type" "checkbox"] []]
  [el_a "input" [ex_attr "type" "checkbox"; ex_attr "checked" ""] []]
  [].

(** wasm.spec.ts *)
Definition wasm_boolean_open_details : own_test := mkTest
  [el "details" [el "summary" [tx "Info"]; el "p" [tx "Content"]]]
  [el_a "details" [ex_attr "open" ""] [el "summary" [tx "Info"]; el "p" [tx "Content"]]]
  [].

(** wasm.spec.ts *)
Definition wasm_unicode_cjk : own_test := mkTest
  [el "p" [tx "Hello"]]
  [el "p" [tx "你好世界"]]
  [].

(** wasm.spec.ts *)
Definition wasm_unicode_emoji : own_test := mkTest
  [el "span" [tx "Status: OK"]]
  [el "span" [tx "Status: ✓ 🎉"]]
  [].

(** wasm.spec.ts *)
Definition wasm_unicode_rtl : own_test := mkTest
  [el "p" [tx "Text"]]
  [el "p" [tx "مرحبا"]]
  [].

(** wasm.spec.ts *)
Definition wasm_unicode_mixed : own_test := mkTest
  [el "div" [tx "English"]]
  [el "div" [tx "English • 日本語 • العربية"]]
  [].

(** wasm.spec.ts *)
Definition wasm_table_cell_change : own_test := mkTest
  [el "table" [el "tbody" [el "tr" [el "td" [tx "A"]; el "td" [tx "B"]]]]]
  [el "table" [el "tbody" [el "tr" [el "td" [tx "X"]; el "td" [tx "Y"]]]]]
  [].

(** wasm.spec.ts *)
Definition wasm_table_add_row : own_test := mkTest
  [el "table" [el "tbody" [el "tr" [el "td" [tx "A"]]]]]
  [el "table" [el "tbody" [el "tr" [el "td" [tx "A"]]; el "tr" [el "td" [tx "B"]]]]]
  [].

(** wasm.spec.ts *)
Definition wasm_table_colspan : own_test := mkTest
  [el "table" [el "tbody" [el "tr" [el "td" [tx "A"]; el "td" [tx "B"]]]]]
  [el "table" [el "tbody" [el "tr" [el_a "td" [ex_attr "colspan" "2"] [tx "Merged"]]]]]
  [].

(** wasm.spec.ts *)
Definition wasm_form_input_value : own_test := mkTest
  [el_a "input" [ex_attr "type" "text"; ex_attr "value" "old"] []]
  [el_a "input" [ex_attr "type" "text"; ex_attr "value" "new"] []]
  [].

(** wasm.spec.ts *)
Definition wasm_form_add_placeholder : own_test := mkTest
  [el_a "input" [ex_attr "type" "text"] []]
  [el_a "input" [ex_attr "type" "text"; ex_attr "placeholder" "Enter text..."] []]
  [].

(** wasm.spec.ts *)
Definition wasm_form_select_option : own_test := mkTest
  [el "select" [el_a "option" [ex_attr "value" "a"] [tx "A"]; el_a "option" [ex_attr "value" "b"] [tx "B"]]]
  [el "select" [el_a "option" [ex_attr "value" "a"] [tx "A"]; el_a "option" [ex_attr "value" "b"; ex_attr "selected" ""] [tx "B"]]]
  [].

(** diff.rs test_diff_text_change *)
Definition unit_diff_text_change : own_test := mkTest
  [el "div" [tx "old"]]
  [el "div" [tx "new"]]
  [].

(** diff.rs test_diff_attr_change *)
Definition unit_diff_attr_change : own_test := mkTest
  [el_a "div" [ex_attr "class" "foo"] []]
  [el_a "div" [ex_attr "class" "bar"] []]
  [].

(** diff.rs test_diff_remove_all_children *)
Definition unit_diff_remove_all_children : own_test := mkTest
  [el "span" []]
  []
  [].

(** diff.rs test_diff_complex_fuzzer_case *)
Definition unit_diff_complex_fuzzer_case : own_test := mkTest
  [el "strong" [tx "old"]]
  [tx "new_text"; el "strong" [tx "updated"]]
  [].

(** diff.rs test_diff_actual_fuzzer_crash *)
Definition unit_diff_actual_fuzzer_crash : own_test := mkTest
  [el "strong" [tx "text1"]; el "strong" [tx "text2"]; el "img" []]
  [tx "text3"; el "strong" [tx "text4"]]
  [].

(** diff.rs test_fuzzer_special_chars *)
Definition unit_fuzzer_special_chars : own_test := mkTest
  [el "strong" [tx "n<&nhnnz"""""""" v"]; el "strong" [tx "< bit"; el_a "jva" [ex_attr "xx" ""; ex_attr "a" ""] []]; el_a "img" [ex_attr "src" "n"; ex_attr "alt" "v"] []]
  [tx "n"; el "strong" [tx "aaa"]]
  [].

(** diff.rs test_fuzzer_img_li_roundtrip *)
Definition unit_fuzzer_img_li_roundtrip : own_test := mkTest
  [el "p" [tx "Unclosed paragraph"; el_a "span" [ex_attr "class" ""] []]; el "div" [tx "Inside P which browsers will auto-close"]; el "span" [tx "Unclosed span"; el "div" [tx "Block in span"]]]
  [el_a "img" [ex_attr "src" "vvv"; ex_attr "alt" "ttt"] []; tx "d "; el "li" [tx "d<<<&<"; el_a "a""d" [ex_attr "<<<<" ""; ex_attr "li" ""] []]]
  [].

(** diff.rs test_fuzzer_nested_ul_remove *)
Definition unit_fuzzer_nested_ul_remove : own_test := mkTest
  [el_a "ul" [ex_attr "class" "h"] [el_a "ul" [ex_attr "class" "z"] [el_a "img" [ex_attr "src" "vvv"; ex_attr "alt" "wvv"] []; el_a "ul" [ex_attr "class" "h"] [el_a "img" [ex_attr "src" "vvv"] []]]]]
  [el_a "ul" [ex_attr "class" "h"] [el_a "ul" [ex_attr "class" "h"] []; el_a "ul" [ex_attr "class" "q"] [el_a "img" [ex_attr "src" "aaa"] []]]]
  [].

(** diff.rs test_fuzzer_em_li_navigate_text *)
Definition unit_fuzzer_em_li_navigate_text : own_test := mkTest
  [el "em" [tx " "; el_a "v<" [ex_attr "<<" ""; ex_attr "v<" ""; ex_attr "em" ""] []]]
  [el "li" [tx "a< "; el_a "v<" [ex_attr "<<<" ""; ex_attr "li" ""] [el_a "img" [ex_attr "src" ""] []]]]
  [].

(** diff.rs test_fuzzer_nested_ol_patch_order *)
Definition unit_fuzzer_nested_ol_patch_order : own_test := mkTest
  [el_a "ol" [ex_attr "start" "0"] []]
  [el_a "ol" [ex_attr "start" "255"] []; el_a "ol" [ex_attr "start" "93"] []; el_a "ol" [ex_attr "start" "91"] [el_a "ol" [ex_attr "start" "1"] [el_a "a" [ex_attr "href" "vaaaaaaaaaaaaa"] []]]]
  [].

(** diff.rs test_fuzzer_slot_contains_text *)
Definition unit_fuzzer_slot_contains_text : own_test := mkTest
  [el "article" [el "code" [tx "<"]; el "code" [tx "<"]; el "code" [tx "<"]; el "code" [tx "<"]]]
  [el "code" [tx "<"]; el "code" [tx "<"]; el "code" [tx "<"]; el "code" [tx "<"]; el "article" [el "code" [tx "<"]; el "code" [tx "<"]; el "h2" [tx "<<<<<<<<<<<<<"]]]
  [].

(** diff.rs test_fuzzer_article_code_move *)
Definition unit_fuzzer_article_code_move : own_test := mkTest
  [el "article" [el "code" [tx "<"]; el "code" [tx "<"]; el "code" [tx "<"]; el "code" [tx "<"]; el "article" [el "article" [el "code" [tx "<"]]]]]
  [el "code" [tx "<"]; el "code" [tx "<"]; el "code" [tx "<"]; el "code" [tx "<"]; el "article" [el "code" [tx "<"]; el "code" [tx "<"]; el "h2" [tx "<<<<<<<<<<<<<"]]]
  [].

(** diff.rs test_arena_dom_diff *)
Definition unit_arena_dom_diff : own_test := mkTest
  [el "div" [tx "Old content"]]
  [el "div" [tx "New content"]]
  [].

(** diff.rs test_arena_dom_diff_add_element *)
Definition unit_arena_dom_diff_add_element : own_test := mkTest
  [el "div" [tx "Content"]]
  [el "div" [tx "Content"]; el "p" [tx "New paragraph"]]
  [].

(** diff.rs test_patch_serialization *)
Definition unit_patch_serialization : own_test := mkTest
  [el "div" [tx "Content"]]
  [el_a "div" [ex_attr "class" "highlight"] [tx "Content"]]
  [].

(** diff.rs test_fuzz_seed_0_template_0 *)
Definition unit_fuzz_seed_0_template_0 : own_test := mkTest
  [el "article" [tx "
    "; el "h1" [tx "Article Title"]; tx "
    "; el "p" [tx "First paragraph with "; el "strong" [tx "bold"]; tx " and "; el "em" [tx "italic"]; tx " text."]; tx "
    "; el "p" [tx "Second paragraph with a "; el_a "a" [ex_attr "href" "#"] [tx "link"]; tx "."]; tx "
  "]]
  [el "article" [tx "

    "; el "p" [tx "First paragraph with "; el "strong" [tx "bold"]; tx " and content"]; tx "
    "; el_a "p" [ex_attr "data-test" "hidden"] [tx "Second paragraph with a ."]; tx "
  "]]
  [].

(** diff.rs test_fuzz_seed_27_template_4 *)
Definition unit_fuzz_seed_27_template_4 : own_test := mkTest
  [el "div" [tx "
    "; el "h3" [tx "Features"]; tx "
    "; el "ul" [tx "
      "; el "li" [tx "Feature one with "; el "code" [tx "code"]]; tx "
      "; el "li" [tx "Feature two with "; el "strong" [tx "emphasis"]]; tx "
      "; el "li" [tx "Feature three"]; tx "
    "]; tx "
  "]]
  [el_a "div" [ex_attr "title" "primary"] [tx "
    "; el "h3" [tx "Features"]; tx "
    "; el "ul" [tx "
      "; el "li" [tx "Feature one with "; el "code" [tx "item"]]; tx "


    "]; tx "
  "]]
  [].

(** diff.rs test_patch_json_roundtrip_with_unicode *)
Definition unit_patch_json_roundtrip_with_unicode : own_test := mkTest
  [el "my-header" [tx "
      "; el "h1" [tx "Title"]; tx "
    "]]
  [el "my-header" [tx "
      中文App Title
    "]]
  [].

(** diff.rs test_svg_inside_strong *)
Definition unit_svg_inside_strong : own_test := mkTest
  [el "p" [tx "Text with "; el "strong" [tx "bold"]; tx " word."]]
  [el "p" [tx "Text with "; el "strong" [HElem "svg" NsSvg [ex_attr "width" "29"; ex_attr "height" "21"] [HElem "circle" NsSvg [] []]]; tx " word."]]
  [].

(** diff.rs test_opaque_unchanged_no_patches *)
Definition unit_opaque_unchanged_no_patches : own_test := mkTest
  [el_a "div" [ex_attr "data-hotmeal-opaque" ""] [el "p" [tx "hello"]]]
  [el_a "div" [ex_attr "data-hotmeal-opaque" ""] [el "p" [tx "hello"]]]
  [[el "p" [tx "hello"]]].

(** diff.rs test_opaque_changed_emits_opaque_changed *)
Definition unit_opaque_changed_emits_opaque_changed : own_test := mkTest
  [el_a "div" [ex_attr "data-hotmeal-opaque" ""] [el "p" [tx "old"]]]
  [el_a "div" [ex_attr "data-hotmeal-opaque" ""] [el "p" [tx "new"]]]
  [[el "p" [tx "new"]]].

(** diff.rs test_opaque_with_normal_siblings *)
Definition unit_opaque_with_normal_siblings : own_test := mkTest
  [el_a "div" [ex_attr "data-hotmeal-opaque" ""] [el "p" [tx "old"]]; el "span" [tx "before"]]
  [el_a "div" [ex_attr "data-hotmeal-opaque" ""] [el "p" [tx "new"]]; el "span" [tx "after"]]
  [[el "p" [tx "new"]]].

(** diff.rs test_opaque_roundtrip_rust_applier *)
Definition unit_opaque_roundtrip_rust_applier : own_test := mkTest
  [el_a "div" [ex_attr "data-hotmeal-opaque" ""] [el "p" [tx "old"]]]
  [el_a "div" [ex_attr "data-hotmeal-opaque" ""] [el "p" [tx "new"]]]
  [[el "p" [tx "new"]]].

(** diff.rs test_opaque_deeply_nested_content *)
Definition unit_opaque_deeply_nested_content : own_test := mkTest
  [el_a "div" [ex_attr "data-hotmeal-opaque" ""] [el_a "div" [ex_attr "class" "wrapper"] [el "ul" [el "li" [tx "item 1"]; el "li" [tx "item 2"]]]]]
  [el_a "div" [ex_attr "data-hotmeal-opaque" ""] [el_a "div" [ex_attr "class" "wrapper"] [el "ul" [el "li" [tx "item A"]; el "li" [tx "item B"]; el "li" [tx "item C"]]]]]
  [[el_a "div" [ex_attr "class" "wrapper"] [el "ul" [el "li" [tx "item A"]; el "li" [tx "item B"]; el "li" [tx "item C"]]]]].

(** diff.rs test_opaque_multiple_siblings *)
Definition unit_opaque_multiple_siblings : own_test := mkTest
  [el_a "div" [ex_attr "data-hotmeal-opaque" ""] [el "p" [tx "chart 1"]]; el_a "div" [ex_attr "data-hotmeal-opaque" ""] [el "p" [tx "chart 2"]]]
  [el_a "div" [ex_attr "data-hotmeal-opaque" ""] [el "p" [tx "updated 1"]]; el_a "div" [ex_attr "data-hotmeal-opaque" ""] [el "p" [tx "updated 2"]]]
  [[el "p" [tx "updated 1"]]; [el "p" [tx "updated 2"]]].

(** diff.rs test_opaque_structural_replacement *)
Definition unit_opaque_structural_replacement : own_test := mkTest
  [el_a "div" [ex_attr "data-hotmeal-opaque" ""] [el_a "pre" [ex_attr "class" "mermaid"] [tx "graph TD; A-->B;"]]]
  [el_a "div" [ex_attr "data-hotmeal-opaque" ""] [HElem "svg" NsSvg [] [HElem "rect" NsSvg [] []]]]
  [[HElem "svg" NsSvg [] [HElem "rect" NsSvg [] []]]].

(** diff.rs test_opaque_only_one_changed *)
Definition unit_opaque_only_one_changed : own_test := mkTest
  [el_a "div" [ex_attr "data-hotmeal-opaque" ""] [el "p" [tx "same"]]; el_a "div" [ex_attr "data-hotmeal-opaque" ""] [el "p" [tx "old"]]]
  [el_a "div" [ex_attr "data-hotmeal-opaque" ""] [el "p" [tx "same"]]; el_a "div" [ex_attr "data-hotmeal-opaque" ""] [el "p" [tx "new"]]]
  [[el "p" [tx "same"]]; [el "p" [tx "new"]]].

(** diff.rs test_opaque_roundtrip_deeply_nested *)
Definition unit_opaque_roundtrip_deeply_nested : own_test := mkTest
  [el_a "div" [ex_attr "data-hotmeal-opaque" ""] [el "div" [el "span" [tx "old text"]]]]
  [el_a "div" [ex_attr "data-hotmeal-opaque" ""] [el "div" [el "span" [tx "new text"]; el "span" [tx "extra"]]]]
  [[el "div" [el "span" [tx "new text"]; el "span" [tx "extra"]]]].

(** diff.rs test_opaque_roundtrip_with_sibling_changes *)
Definition unit_opaque_roundtrip_with_sibling_changes : own_test := mkTest
  [el_a "div" [ex_attr "data-hotmeal-opaque" ""] [el "p" [tx "old chart"]]; el "p" [tx "before text"]]
  [el_a "div" [ex_attr "data-hotmeal-opaque" ""] [el "p" [tx "new chart"]]; el "p" [tx "after text"]]
  [[el "p" [tx "new chart"]]].

(** test_debug_fuzzer_bug.rs *)
Definition bug_img_alt : own_test := mkTest
  [el "img" []; el_a "img" [ex_attr "src" ""; ex_attr "alt" ""] []; el_a "img" [ex_attr "src" ""] []]
  [el_a "img" [ex_attr "src" ""; ex_attr "alt" ""] []; el_a "img" [ex_attr "src" ""] []]
  [].

(** test_debug_fuzzer_bug.rs *)
Definition bug_textarea : own_test := mkTest
  [tx "
$"]
  [el "textarea" [tx "


</body></html>"]]
  [].

(** test_debug_fuzzer_bug.rs *)
Definition bug_text_to_s : own_test := mkTest
  [tx "'"]
  [el_a "s" [ex_attr "=<" ""; ex_attr "body" ""] []]
  [].

Definition own_tests : list own_test :=
  [case_add_second_p_same_text;
   case_attr_add;
   case_attr_change;
   case_attr_remove;
   case_body_text_change;
   case_empty_div_add_child;
   case_fuzz_card_restructure;
   case_identical;
   case_insert_at_end;
   case_insert_at_start;
   case_insert_in_middle;
   case_issue_1846_nested_divs;
   case_mixed_changes;
   case_move_first_to_end;
   case_nested_text_change;
   case_newline_in_text;
   case_newlines_between_elements;
   case_opaque_content_changed;
   case_opaque_deeply_nested_change;
   case_opaque_multiple_siblings;
   case_opaque_structural_change;
   case_opaque_unchanged;
   case_opaque_with_sibling_changes;
   case_remove_from_end;
   case_remove_from_middle;
   case_remove_from_start;
   case_replace_div_with_p_attrs;
   case_replace_element_type;
   case_swap_different_types;
   case_swap_two;
   case_text_change;
   case_text_moves_into_div;
   case_text_with_newlines;
   case_wrap_in_div;
   wasm_simple_text_change;
   wasm_text_in_div;
   wasm_add_class;
   wasm_change_class;
   wasm_remove_class;
   wasm_insert_element_at_end;
   wasm_insert_element_at_start;
   wasm_insert_element_in_middle;
   wasm_remove_element_from_end;
   wasm_remove_element_from_start;
   wasm_fill_empty_div;
   wasm_drain_div_content;
   wasm_text_moves_into_div;
   wasm_nested_text_change;
   wasm_deeply_nested;
   wasm_multiple_text_changes;
   wasm_swap_siblings;
   wasm_text_and_elements;
   wasm_whitespace_text_change;
   wasm_newlines_between_elements;
   wasm_svg_simple_circle;
   wasm_svg_add_element;
   wasm_svg_remove_element;
   wasm_svg_change_fill;
   wasm_svg_add_fill;
   wasm_svg_with_group;
   wasm_svg_path_change;
   wasm_svg_text_change;
   wasm_svg_viewBox_change;
   wasm_svg_nested_groups;
   wasm_svg_defs_and_use;
   wasm_svg_gradient;
   wasm_inline_svg_in_div;
   wasm_svg_with_html_siblings;
   wasm_svg_multiple_shapes_reorder;
   wasm_custom_element_text_change;
   wasm_custom_element_add_attr;
   wasm_custom_element_nested;
   wasm_custom_element_with_slot;
   wasm_data_attr_add;
   wasm_data_attr_change;
   wasm_data_attr_remove;
   wasm_multiple_data_attrs;
   wasm_boolean_disabled_add;
   wasm_boolean_disabled_remove;
   wasm_boolean_checked;
   wasm_boolean_open_details;
   wasm_unicode_cjk;
   wasm_unicode_emoji;
   wasm_unicode_rtl;
   wasm_unicode_mixed;
   wasm_table_cell_change;
   wasm_table_add_row;
   wasm_table_colspan;
   wasm_form_input_value;
   wasm_form_add_placeholder;
   wasm_form_select_option;
   unit_diff_text_change;
   unit_diff_attr_change;
   unit_diff_remove_all_children;
   unit_diff_complex_fuzzer_case;
   unit_diff_actual_fuzzer_crash;
   unit_fuzzer_special_chars;
   unit_fuzzer_img_li_roundtrip;
   unit_fuzzer_nested_ul_remove;
   unit_fuzzer_em_li_navigate_text;
   unit_fuzzer_nested_ol_patch_order;
   unit_fuzzer_slot_contains_text;
   unit_fuzzer_article_code_move;
   unit_arena_dom_diff;
   unit_arena_dom_diff_add_element;
   unit_patch_serialization;
   unit_fuzz_seed_0_template_0;
   unit_fuzz_seed_27_template_4;
   unit_patch_json_roundtrip_with_unicode;
   unit_svg_inside_strong;
   unit_opaque_unchanged_no_patches;
   unit_opaque_changed_emits_opaque_changed;
   unit_opaque_with_normal_siblings;
   unit_opaque_roundtrip_rust_applier;
   unit_opaque_deeply_nested_content;
   unit_opaque_multiple_siblings;
   unit_opaque_structural_replacement;
   unit_opaque_only_one_changed;
   unit_opaque_roundtrip_deeply_nested;
   unit_opaque_roundtrip_with_sibling_changes;
   bug_img_alt;
   bug_textarea;
   bug_text_to_s].

(** Those of wasm.spec.ts. *)
Definition wasm_tests : list own_test :=
  [wasm_simple_text_change;
   wasm_text_in_div;
   wasm_add_class;
   wasm_change_class;
   wasm_remove_class;
   wasm_insert_element_at_end;
   wasm_insert_element_at_start;
   wasm_insert_element_in_middle;
   wasm_remove_element_from_end;
   wasm_remove_element_from_start;
   wasm_fill_empty_div;
   wasm_drain_div_content;
   wasm_text_moves_into_div;
   wasm_nested_text_change;
   wasm_deeply_nested;
   wasm_multiple_text_changes;
   wasm_swap_siblings;
   wasm_text_and_elements;
   wasm_whitespace_text_change;
   wasm_newlines_between_elements;
   wasm_svg_simple_circle;
   wasm_svg_add_element;
   wasm_svg_remove_element;
   wasm_svg_change_fill;
   wasm_svg_add_fill;
   wasm_svg_with_group;
   wasm_svg_path_change;
   wasm_svg_text_change;
   wasm_svg_viewBox_change;
   wasm_svg_nested_groups;
   wasm_svg_defs_and_use;
   wasm_svg_gradient;
   wasm_inline_svg_in_div;
   wasm_svg_with_html_siblings;
   wasm_svg_multiple_shapes_reorder;
   wasm_custom_element_text_change;
   wasm_custom_element_add_attr;
   wasm_custom_element_nested;
   wasm_custom_element_with_slot;
   wasm_data_attr_add;
   wasm_data_attr_change;
   wasm_data_attr_remove;
   wasm_multiple_data_attrs;
   wasm_boolean_disabled_add;
   wasm_boolean_disabled_remove;
   wasm_boolean_checked;
   wasm_boolean_open_details;
   wasm_unicode_cjk;
   wasm_unicode_emoji;
   wasm_unicode_rtl;
   wasm_unicode_mixed;
   wasm_table_cell_change;
   wasm_table_add_row;
   wasm_table_colspan;
   wasm_form_input_value;
   wasm_form_add_placeholder;
   wasm_form_select_option].

(** ** The tests that compare pages *)

(** All of them pass on the model of the diff and of the native applier. *)
Example own_tests_native : forallb native_passes own_tests = true.
Proof. vm_compute. reflexivity. Qed.

(** wasm.spec.ts:325-339 compares the page with the new HTML after parsing and
    writing both again ([normalizeHtml]), which gives SVG attributes their upper
    case letters back: the letter case is ignored here.  That it matters is
    finding F22: the browser shows [viewbox] after these three tests. *)
Definition browser_passes_folded (t : own_test) : bool :=
  match test_patches t with
  | Val ps =>
      match apply_patches_body ex_name ex_name (fun s => map btree (lookup_parser (opaque_contents t) s))
              (mk_doc [] (map btree (old_page t))) ps with
      | (d, Val _) => match get_body_inner_html d with
                      | Val x => String.eqb (to_ascii_lowercase x) (to_ascii_lowercase (ser_trees (new_page t)))
                      | _ => false
                      end
      | _ => false
      end
  | _ => false
  end.
Example own_tests_browser : forallb browser_passes_folded wasm_tests = true.
Proof. vm_compute. reflexivity. Qed.
Example own_tests_browser_case :
  List.filter (fun t => negb (browser_passes t)) wasm_tests = [wasm_svg_add_element; wasm_svg_remove_element; wasm_svg_text_change].
Proof. vm_compute. reflexivity. Qed.

(** ** The tests of diff.rs that look at the patches *)

Definition count_patches (f : patch -> bool) (t : own_test) : outcome nat :=
  let! ps := test_patches t in Val (length (List.filter f ps)).
Definition is_set_text (p : patch) : bool := match p with PSetText _ _ => true | _ => false end.
Definition is_insert_element (p : patch) : bool := match p with PInsertElement _ _ _ _ _ => true | _ => false end.
Definition is_opaque_changed (p : patch) : bool := match p with POpaqueChanged _ _ => true | _ => false end.
(** diff.rs:2958-2973: the patches that must not be there *)
Definition is_structural (p : patch) : bool :=
  match p with
  | PInsertElement _ _ _ _ _ | PInsertText _ _ _ | PRemove _ | PSetText _ _ | PMove _ _ _ => true
  | _ => false
  end.
Definition updates_attr (name : string) (p : patch) : bool :=
  match p with
  | PUpdateProps _ cs => existsb (fun c => match pc_name c with PAttr q => String.eqb (q_local q) name | _ => false end) cs
  | _ => false
  end.

Example tests_of_patches :
  count_patches is_set_text unit_diff_text_change = Val 1
  /\ count_patches (updates_attr "class") unit_diff_attr_change = Val 1
  /\ count_patches is_set_text unit_arena_dom_diff = Val 1
  /\ count_patches is_insert_element unit_arena_dom_diff_add_element = Val 1
  /\ test_patches unit_opaque_unchanged_no_patches = Val []
  /\ count_patches is_opaque_changed unit_opaque_changed_emits_opaque_changed = Val 1
  /\ count_patches is_structural unit_opaque_changed_emits_opaque_changed = Val 0
  /\ count_patches is_opaque_changed unit_opaque_with_normal_siblings = Val 1
  /\ count_patches is_set_text unit_opaque_with_normal_siblings = Val 1
  /\ count_patches is_opaque_changed unit_opaque_deeply_nested_content = Val 1
  /\ count_patches is_structural unit_opaque_deeply_nested_content = Val 0
  /\ count_patches is_opaque_changed unit_opaque_multiple_siblings = Val 2
  /\ test_patches unit_opaque_structural_replacement = Val [POpaqueChanged [0; 0] "<svg><rect></rect></svg>"]
  /\ count_patches is_opaque_changed unit_opaque_only_one_changed = Val 1.
Proof. vm_compute. repeat split. Qed.

(** diff.rs:2857-2914 [test_move_parent_under_child_no_cycle]: 0 [body], 1 [div_a],
    2 [div_b], 3 [div_c]. *)
Example test_move_parent_under_child :
  match (let el_td := fun t => mkTD (KElem t NsHtml) [] None in
         let a0 := map (fun t => mkNode (el_td t) None []) ["body"; "div"; "div"; "div"] in
         let! a1 := append a0 0 1 in
         let! a2 := append a1 1 2 in
         let! a3 := append a2 2 3 in
         let! sh := shadow_new a3 0 in
         let! (sh', k) := sh_move sh 1 2 0 in
         let! p := compute_path sh' 1 in
         Val (existsb (Nat.eqb 1) (children (sh_arena sh') 2), p)) with
  | Val (true, _) => True
  | _ => False
  end.
Proof. vm_compute. exact I. Qed.

(** ** hotmeal/tests/apply_tests.rs *)

(** The documents of these tests have no doctype. *)
Definition plain (ts : list htree) : document := mkDoc (doc_arena (mk_doc [] ts)) (doc_root (mk_doc [] ts)) None.
Definition applied (ts : list htree) (ps : list patch) : option string :=
  match apply_patches no_parser (plain ts) ps with
  | (d, Val _) => to_html d
  | _ => None
  end.
Definition page_of (b : string) : option string := Some ("<html><head></head><body>" ++ b ++ "</body></html>").
Definition quoted (s : string) : string := let q := String (Ascii.ascii_of_nat 34) "" in q ++ s ++ q.

Example apply_tests :
  to_html (plain [el "p" [tx "Hello"]]) = page_of "<p>Hello</p>"
  /\ applied [el "p" [tx "Hello"]] [PSetText [0; 0; 0] "Goodbye"] = page_of "<p>Goodbye</p>"
  /\ applied [el "div" [tx "Content"]] [PSetAttribute [0; 0] (mkQ None "" "class") "highlight"]
     = page_of ("<div class=" ++ quoted "highlight" ++ ">Content</div>")
  /\ applied [el "p" [tx "First"]; el "p" [tx "Second"]] [PRemove [0; 1]] = page_of "<p>First</p>"
  /\ applied [el "p" [tx "First"]] [PInsertElement [0; 0] "p" [] [] (Some 1)] = page_of "<p></p>"
  /\ applied [el "p" [tx "First"]] [PInsertElement [0; 1] "p" [] [] None] = page_of "<p>First</p><p></p>"
  /\ applied [el "p" [tx "First"]] [PInsertElement [0; 1] "p" [] [ICText "Second"] None] = page_of "<p>First</p><p>Second</p>"
  /\ applied [el "p" [tx "First"]] [PInsertElement [0; 1] "p" [ex_attr "class" "highlight"] [ICText "Second"] None]
     = page_of ("<p>First</p><p class=" ++ quoted "highlight" ++ ">Second</p>")
  /\ applied [el "p" [tx "First"]] [PInsertText [0; 1] "Hello" None] = page_of "<p>First</p>Hello".
Proof. vm_compute. repeat split. Qed.

(** ** dom.rs:1957-2125: writing a page as HTML *)

Definition plain_head (hs : list htree) : document := mkDoc (doc_arena (mk_doc hs [])) (doc_root (mk_doc hs [])) None.
Example to_html_tests :
  to_html (plain [el "div" [tx ("<script> & " ++ quoted "quotes")]])
    = page_of ("<div>&lt;script> &amp; " ++ quoted "quotes" ++ "</div>")
  /\ to_html (plain [el "br" []; el_a "img" [ex_attr "src" "test.png"] []])
     = page_of ("<br><img src=" ++ quoted "test.png" ++ ">")
  /\ to_html (plain [el_a "div" [ex_attr "class" "container"; ex_attr "id" "main"] [tx "Content"]])
     = page_of ("<div class=" ++ quoted "container" ++ " id=" ++ quoted "main" ++ ">Content</div>")
  /\ to_html (plain_head [el "script" [tx "const x = () => { return 1 < 2; };"]])
     = Some "<html><head><script>const x = () => { return 1 < 2; };</script></head><body></body></html>"
  /\ to_html (plain_head [el "style" [tx ".foo > .bar { color: red; }"]])
     = Some "<html><head><style>.foo > .bar { color: red; }</style></head><body></body></html>"
  /\ to_html (plain [el "p" [tx "1 < 2 & 3 > 1"]]) = page_of "<p>1 &lt; 2 &amp; 3 > 1</p>"
  /\ to_html (plain [el "pre" [tx "[*] --> Foo"]]) = page_of "<pre>[*] --> Foo</pre>".
Proof. vm_compute. repeat split. Qed.
(** dom.rs:1869-1875 *)
Example has_doctype_prefix_tests :
  has_doctype_prefix "<!DOCTYPE html>" = true /\ has_doctype_prefix "  <!doctype html>" = true
  /\ has_doctype_prefix "<html></html>" = false.
Proof. vm_compute. repeat split. Qed.

(** ** cinereus/src/matching.rs:720-990 and chawathe.rs:401-1220 *)

(** Trees of these tests: the hash, the kind, whether the node is marked opaque,
    the children. *)
Inductive ctree := CN (h : nat) (k : string) (opq : bool) (cs : list ctree).
Definition c_ (h : nat) (k : string) (cs : list ctree) : ctree := CN h k false cs.
(** The nodes in the order in which the tests add them, each with the index of its parent. *)
Fixpoint add_ctree (p : option nat) (t : ctree) (acc : tree nat string unit string * list nat) {struct t}
  : outcome (tree nat string unit string * list nat) :=
  let 'CN h k o cs := t in
  let '(tr, opq) := acc in
  let! (tr', i) := match p with
                   | None => Val (tree_new (simple h k), 0)
                   | Some q => add_child tr q (simple h k)
                   end in
  (fix go (l : list ctree) acc := match l with [] => Val acc | c :: r => let! acc' := add_ctree (Some i) c acc in go r acc' end)
    cs (tr', if o then opq ++ [i] else opq)%list.
(** [OpaqueTree] (chawathe.rs:986-1067): the same tree with [is_opaque] replaced. *)
Definition ctree_dtree (t : ctree) : outcome (dtree nat string unit string) :=
  let! (tr, opq) := add_ctree None t (tree_new (simple 0 ""), []) in
  let! d := tree_dtree tr in
  Val {| t_root := t_root d; t_hash := t_hash d; t_kind := t_kind d; t_props := t_props d; t_text := t_text d;
         t_parent := t_parent d; t_children := t_children d; t_position := t_position d; t_height := t_height d;
         t_iter := t_iter d; t_post := t_post d; t_desc := t_desc d;
         t_opaque := fun i => existsb (Nat.eqb i) opq |}.
Definition cin_run (cfg : config) (t u : ctree) : outcome (matching * list (edit_op string string (list unit))) :=
  let! a := ctree_dtree t in
  let! b := ctree_dtree u in
  let! m := compute_matching Nat.eqb String.eqb no_props_sim cfg a b in
  Val (m, generate_edit_script String.eqb no_props_empty no_props_diff (fun _ => false) (@length unit) no_props_len a b m).
(** The pairs of a matching, by the index of the old node. *)
Definition cin_match (cfg : config) (t u : ctree) : outcome (list (option nat)) :=
  let! (m, _) := cin_run cfg t u in Val (map (get_b m) (seq 0 5)).
Definition cin_ops (cfg : config) (t u : ctree) := let! (_, ops) := cin_run cfg t u in Val ops.
Definition min_height_0 : config := mkCfg 1 2 0.

Example matching_tests :
  (* test_identical_trees *)
  cin_match default_config (c_ 100 "root" [c_ 1 "leaf" []; c_ 2 "leaf" []]) (c_ 100 "root" [c_ 1 "leaf" []; c_ 2 "leaf" []])
    = Val [Some 0; Some 1; Some 2; None; None]
  (* test_partial_match *)
  /\ (let! l := cin_match default_config (c_ 100 "root" [c_ 1 "leaf" []; c_ 2 "leaf" []])
                 (c_ 100 "root" [c_ 1 "leaf" []; c_ 3 "leaf" []]) in Val (l !! 1)) = Val (Some (Some 1))
  (* test_opaque_node_matched_but_children_not *)
  /\ cin_match default_config (c_ 100 "root" [CN 10 "div" true [c_ 1 "text" []; c_ 2 "text" []]])
       (c_ 200 "root" [CN 20 "div" true [c_ 3 "text" []; c_ 4 "text" []]])
     = Val [Some 0; Some 1; None; None; None]
  (* test_opaque_deeply_nested_children_not_matched *)
  /\ cin_match default_config (c_ 100 "root" [CN 10 "div" true [c_ 5 "span" [c_ 1 "text" []]]])
       (c_ 100 "root" [CN 10 "div" true [c_ 5 "span" [c_ 1 "text" []]]])
     = Val [Some 0; Some 1; None; None; None]
  (* test_opaque_sibling_still_matched *)
  /\ cin_match default_config (c_ 100 "root" [CN 10 "div" true [c_ 1 "text" []]; c_ 20 "span" [c_ 3 "text" []]])
       (c_ 100 "root" [CN 10 "div" true [c_ 1 "text" []]; c_ 20 "span" [c_ 3 "text" []]])
     = Val [Some 0; Some 1; None; Some 3; Some 4].
Proof. vm_compute. repeat split. Qed.

Example script_tests :
  (* test_no_changes *)
  cin_ops default_config (c_ 100 "root" [c_ 1 "leaf" []]) (c_ 100 "root" [c_ 1 "leaf" []]) = Val []
  (* test_matched_nodes_different_hash_no_op *)
  /\ cin_ops default_config (c_ 100 "root" [c_ 1 "leaf" []]) (c_ 100 "root" [c_ 2 "leaf" []]) = Val []
  (* test_insert *)
  /\ cin_ops default_config (c_ 100 "root" []) (c_ 100 "root" [c_ 1 "leaf" []]) = Val [Insert 1 0 0 "leaf"]
  (* test_delete *)
  /\ cin_ops default_config (c_ 100 "root" [c_ 1 "leaf" []]) (c_ 100 "root" []) = Val [Delete 1]
  (* test_swap_two_siblings: child_a (1) to position 1, child_b (2) to position 0 *)
  /\ (let! ops := cin_ops min_height_0 (c_ 100 "root" [c_ 1 "leaf" []; c_ 2 "leaf" []])
                    (c_ 200 "root" [c_ 2 "leaf" []; c_ 1 "leaf" []]) in
      Val (existsb (fun o => match o with Move 1 2 0 1 => true | _ => false end) ops,
           existsb (fun o => match o with Move 2 1 0 0 => true | _ => false end) ops, length ops)) = Val (true, true, 2)
  (* test_opaque_no_edits_for_children *)
  /\ cin_ops default_config (c_ 100 "root" [CN 10 "div" true [c_ 1 "text" []]])
       (c_ 200 "root" [CN 20 "div" true [c_ 2 "text" []]]) = Val []
  (* test_opaque_deeply_nested_no_edits *)
  /\ cin_ops default_config (c_ 100 "root" [CN 10 "div" true [c_ 5 "span" [c_ 1 "text" []; c_ 2 "text" []]]])
       (c_ 200 "root" [CN 20 "div" true [c_ 6 "span" [c_ 3 "text" []]]]) = Val []
  (* test_opaque_sibling_still_edited: one insertion, of the p *)
  /\ cin_ops default_config (c_ 100 "root" [CN 10 "div" true [c_ 1 "text" []]; c_ 20 "span" []])
       (c_ 200 "root" [CN 20 "div" true [c_ 2 "text" []]; c_ 20 "span" []; c_ 30 "p" []]) = Val [Insert 4 0 2 "p"]
  (* test_opaque_identical_no_ops *)
  /\ cin_ops default_config (c_ 100 "root" [CN 10 "div" true [c_ 1 "text" []]])
       (c_ 100 "root" [CN 10 "div" true [c_ 1 "text" []]]) = Val [].
Proof. vm_compute. repeat split. Qed.

(** chawathe.rs:679-919: the same with attributes [id] and [class]; a change is
    [Some v] for [PropValue::Different v], [None] for [PropValue::Same]. *)
Definition html_attrs := (option string * option string)%type.
Definition oeqb (x y : option string) : bool := match x, y with Some s, Some t => String.eqb s t | None, None => true | _, _ => false end.
Definition is_some (x : option string) : bool := match x with Some _ => true | None => false end.
Definition b2n (b : bool) : nat := if b then 1 else 0.
Definition ha_sim (x y : html_attrs) : ratio :=
  let one s t := let used := is_some s || is_some t in (b2n (used && oeqb s t), b2n used) in
  let '(m1, t1) := one (fst x) (fst y) in
  let '(m2, t2) := one (snd x) (snd y) in
  if Nat.eqb (t1 + t2) 0 then (1, 1) else (m1 + m2, t1 + t2).
Definition ha_diff (x y : html_attrs) : list (string * option string) :=
  let one k s t := match t with None => [] | Some v => [(k, if oeqb s t then None else Some v)] end in
  (one "id" (fst x) (fst y) ++ one "class" (snd x) (snd y))%list.
Definition ha_len (x : html_attrs) : nat := b2n (is_some (fst x)) + b2n (is_some (snd x)).
Definition ha_tree (h : nat) (x : html_attrs) : outcome (tree nat string html_attrs string) :=
  let! (t, _) := add_child (tree_new (element_data 0 "root" (None, None))) 0 (element_data h "div" x) in Val t.
Definition ha_run (x y : html_attrs) :=
  let! t := ha_tree 1 x in
  let! u := ha_tree 2 y in
  let! (ops, m) := diff_trees_with_matching Nat.eqb String.eqb String.eqb ha_sim (fun z => Nat.eqb (ha_len z) 0)
                     ha_diff (existsb (fun c => is_some (snd c))) (@length _) ha_len default_config t u in
  Val (get_b m 1, ops).
Example properties_tests :
  (* test_properties_emit_update_property_ops *)
  ha_run (Some "foo", None) (Some "bar", Some "container")
    = Val (Some 1, [UpdateProperties 1 1 [("id", Some "bar"); ("class", Some "container")]])
  (* test_properties_no_cross_matching *)
  /\ ha_run (None, None) (Some "myid", None) = Val (Some 1, [UpdateProperties 1 1 [("id", Some "myid")]]).
Proof. vm_compute. repeat split. Qed.

(** ** hotmeal-server/src/lib.rs:278-431 *)

(** [diff_html] on the two pages of these tests. *)
Definition server_diff (old new : string) : option (list patch) :=
  let parse s := mk_doc [] (lookup_parser [[el "p" [tx "hello"]]; [el "p" [tx "world"]]] s) in
  match pdiff (parse old) (parse new) with Val ps => Some ps | _ => None end.
Definition hello : string := "<p>hello</p>".
Definition world : string := "<p>world</p>".
Definition served : server := fst (cache_html server_new "/" hello).
Definition link_to (f : string) : string := "<link rel=" ++ quoted "stylesheet" ++ " href=" ++ quoted f ++ ">".
(** Patches for "/", at least one, and the blob can be read back. *)
Definition some_patches (e : option event) : bool :=
  match e with
  | Some (EvPatches "/" (p :: ps)) => match from_blob (to_blob (p :: ps)) with Some (_ :: _) => true | _ => false end
  | _ => false
  end.

Example server_tests :
  snd (cache_html server_new "/" hello) = None
  /\ snd (cache_html served "/" world) = Some hello
  /\ snd (diff_route server_diff server_new "/new" hello) = Some EvReload
  /\ snd (diff_route server_diff served "/" hello) = None
  /\ some_patches (snd (diff_route server_diff served "/" world)) = true
  /\ snd (diff_route_with_head server_diff (fst (cache_head served "/" (link_to "a.css"))) "/" hello (link_to "b.css"))
     = Some (EvHeadChanged "/")
  /\ some_patches (snd (diff_route_with_head server_diff (fst (cache_head served "/" (link_to "a.css"))) "/" world (link_to "a.css")))
     = true
  /\ (let s := fst (cache_head (fst (cache_html server_new "/a" "<p>a</p>")) "/a" "head-a") in
      let '(s1, r1) := remove_route s "/a" in
      let '(s2, r2) := remove_route s1 "/a" in (r1, r2, cached_routes s2)) = (true, false, [])
  /\ cached_routes (server_clear (fst (cache_html (fst (cache_html server_new "/a" "a")) "/b" "b"))) = []
  /\ inject_into_head "<html><head><title>Test</title></head><body></body></html>" "<link>"
     = "<html><head><link><title>Test</title></head><body></body></html>"
  /\ inject_into_head "<html><body>hi</body></html>" "<style>body{}</style>" = "<style>body{}</style><html><body>hi</body></html>"
  /\ from_postcard (to_postcard (WPatches "/test" (string_of_list_ascii (map Ascii.ascii_of_nat [1; 2; 3]))))
     = Some (WPatches "/test" (string_of_list_ascii (map Ascii.ascii_of_nat [1; 2; 3])))
  /\ from_postcard (to_postcard WReload) = Some WReload
  /\ (let s := loader_script "/wasm.js" "/wasm.wasm" "#content" "ws://localhost:3000/_lr" in
      forallb (fun x => match str_find x s with Some _ => true | None => false end)
        ["start_live_reload"; "#content"; "ws://localhost:3000/_lr"]) = true.
Proof. vm_compute. repeat split. Qed.
