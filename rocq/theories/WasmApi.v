(** The functions of hotmeal-wasm/src/lib.rs that a page or a test calls on
    [document.body] (44-68, 116-149, 905-932).

    [body.innerHTML = s] removes all children of the body and appends the nodes
    that the browser's parser makes of [s]; reading [body.innerHTML] is
    [serialize_inner_html].  The JSON codec (facet_json) is a pair of functions.
    Not modelled: error messages, [log]. *)
From Verif Require Import Base Arena Matching Dom HtmlDiff Sink Page Browser Wire.
Local Open Scope string_scope.

Section Api.
  Variables valid_elem valid_attr : string -> bool.
  Variable parse_template : string -> list htree.
  (** The nodes the browser's parser makes of a text in the body. *)
  Variable parse_fragment : string -> list htree.
  (** [facet_json::to_string], [facet_json::from_str] *)
  Variable json_write : list patch -> option string.
  Variable json_read : string -> option (list patch).

  (** lib.rs:134-141 [apply_patches_with_slots]: the body is looked up at each
      call. *)
  Definition apply_patches_with_slots (st : document * slots) (ps : list patch)
    : (document * slots) * outcome nat :=
    match body (fst st) with
    | None => (st, Fail NoBody)
    | Some b =>
        let '((a, sl), r) :=
          b_apply_all valid_elem valid_attr parse_template b (doc_arena (fst st), snd st) ps in
        ((mkDoc a (doc_root (fst st)) (doc_doctype (fst st)), sl), let! _ := r in Val (length ps))
    end.

  (** lib.rs:127-130 [apply_patches] *)
  Definition apply_patches_body (d : document) (ps : list patch) : document * outcome nat :=
    let '(st, r) := apply_patches_with_slots (d, []) ps in (fst st, r).

  (** lib.rs:145-149 [apply_patches_postcard] *)
  Definition apply_patches_postcard (d : document) (blob : string) : document * outcome nat :=
    match from_blob blob with
    | Some ps => apply_patches_body d ps
    | None => (d, Fail DomException)
    end.

  (** lib.rs:119-124 [apply_patches_json] *)
  Definition apply_patches_json (d : document) (s : string) : document * outcome nat :=
    match json_read s with
    | Some ps => apply_patches_body d ps
    | None => (d, Fail DomException)
    end.

  (** lib.rs:907-917 [get_body_inner_html] *)
  Definition get_body_inner_html (d : document) : outcome string :=
    match body d with
    | None => Fail NoBody
    | Some b => match serialize_inner_html (doc_arena d) b with Some s => Val s | None => Diverge end
    end.

  (** lib.rs:921-932 [set_body_inner_html] *)
  Definition set_body_inner_html (d : document) (s : string) : document * outcome unit :=
    match body d with
    | None => (d, Fail NoBody)
    | Some b =>
        let a1 := detach_all (doc_arena d) (children (doc_arena d) b) in
        match clone_under a1 b (parse_fragment s) with
        | Val a2 => (mkDoc a2 (doc_root d) (doc_doctype d), Val tt)
        | Fail e => (d, Fail e)
        | Panic => (d, Panic)
        | Diverge => (d, Diverge)
        end
    end.

  (** Successive calls with the same slots; a caller stops at the first error
      (hotmeal/fuzz/browser-wasm/src/lib.rs:263-291 does this with one patch per
      call).  The counts are added up. *)
  Fixpoint in_batches (st : document * slots) (bs : list (list patch)) : (document * slots) * outcome nat :=
    match bs with
    | [] => (st, Val 0)
    | ps :: bs' =>
        match apply_patches_with_slots st ps with
        | (st', Val n) => let '(st'', r) := in_batches st' bs' in (st'', let! k := r in Val (n + k))
        | r => r
        end
    end.

  Section Diff.
    Context {H : Type}.
    Variables (heqb : H -> H -> bool) (hcomb : hkind -> option string -> list H -> H) (h0 : H).
    Variable html5ever : string -> list sink_call.
    (** lib.rs:61-68 [diff_html_patches]; [into_owned] changes nothing (C64). *)
    Definition diff_html_patches (old new : string) : outcome (list patch) :=
      diff_html heqb hcomb h0 html5ever old new.
    (** lib.rs:46-57 [diff_html]: the patches as JSON. *)
    Definition diff_html_json (old new : string) : outcome string :=
      let! ps := diff_html heqb hcomb h0 html5ever old new in
      match json_write ps with Some s => Val s | None => Fail DomException end.
  End Diff.
End Api.
