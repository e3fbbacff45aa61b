(** Model of the comparison that the project's fuzz targets make:
    hotmeal/fuzz/fuzz_targets (native side) and hotmeal/fuzz/browser-wasm (browser
    side).

    Modelled: the trees they compare ([DomNode]), the recording of a run patch by
    patch ([PatchTrace]), the comparison of two runs, the filter on the patches and
    the targets apply.rs and apply_parity.rs from the parsed documents on.
    Not modelled: the making of inputs from the fuzzer's bytes, html5ever and the
    browser's parser (the documents are given), which characters the filter allows
    in a name, the connection to the browser and the texts that are printed. *)
From Coq Require Import Ascii.
From Verif Require Import Base Arena Matching Chawathe Dom HtmlDiff Browser Sink.
Local Open Scope string_scope.

(** browser-proto/src/lib.rs:11-33 [DomNode], [DomAttr] *)
Inductive domnode :=
| DElem (tag : string) (ats : list (string * string)) (cs : list domnode)
| DText (s : string)
| DComment (s : string).

(** ** Trees *)

(** [attrs.sort_by(|a, b| a.name.cmp(&b.name))]: a stable sort; strings are
    compared byte by byte. *)
Fixpoint insert_attr (x : string * string) (l : list (string * string)) : list (string * string) :=
  match l with
  | [] => [x]
  | y :: l' => if String.leb (fst x) (fst y) then x :: l else y :: insert_attr x l'
  end.
Fixpoint sort_attrs (l : list (string * string)) : list (string * string) :=
  match l with
  | [] => []
  | x :: l' => insert_attr x (sort_attrs l')
  end.

(** common/dom_node.rs:18 [HTML_ELEMENT_ALLOWED_ATTRS] *)
Definition html_allowed : list string := ["lang"; "dir"; "class"; "id"; "style"].
(** common/dom_node.rs:25-49: names and values, in the order of the names. *)
Definition native_attrs (tag : string) (l : attrs) : list (string * string) :=
  let kept := if String.eqb tag "html"
              then List.filter (fun kv => existsb (String.eqb (q_local (fst kv))) html_allowed) l
              else l in
  sort_attrs (map (fun kv => (bname (fst kv), snd kv)) kept).
(** browser-wasm/src/lib.rs:95-107; an attribute of a browser is stored under its
    qualified name (Browser.v). *)
Definition browser_attrs (l : attrs) : list (string * string) :=
  sort_attrs (map (fun kv => (q_local (fst kv), snd kv)) l).

(** The children of a node, one after the other. *)
Fixpoint all_some {A B} (f : A -> option B) (l : list A) : option (list B) :=
  match l with
  | [] => Some []
  | x :: l' => match f x, all_some f l' with
               | Some y, Some ys => Some (y :: ys)
               | _, _ => None
               end
  end.

(** common/dom_node.rs:20-63 [node_to_dom_node] and
    browser-wasm/src/lib.rs:86-136 [node_to_dom_node]; they differ in the
    attributes.  Recursion in Rust; [None] when the fuel runs out. *)
Fixpoint dom_node_f (ats : string -> attrs -> list (string * string)) (fuel : nat) (a : arena dnode) (i : nat)
  : option domnode :=
  match fuel with
  | 0 => None
  | S f =>
      match node_kind a i with
      | Some (NElem tag l) =>
          match all_some (dom_node_f ats f a) (children a i) with
          | Some cs => Some (DElem (lower tag) (ats (lower tag) l) cs)
          | None => None
          end
      | Some (NText s) => Some (DText s)
      | Some (NComment s) => Some (DComment s)
      | _ => Some (DText "")
      end
  end.
Definition native_node (a : arena dnode) (i : nat) : option domnode :=
  dom_node_f native_attrs (tree_fuel a) a i.
Definition browser_node (a : arena dnode) (i : nat) : option domnode :=
  dom_node_f (fun _ => browser_attrs) (tree_fuel a) a i.

(** common/dom_node.rs:8-13 [document_body_to_dom_node]: the body or, without
    one, the root. *)
Definition body_or_root (d : document) : nat := match body d with Some b => b | None => doc_root d end.
Definition document_tree (d : document) : option domnode := native_node (doc_arena d) (body_or_root d).

(** browser-wasm/src/lib.rs:50-65 [body_to_html_wrapped_dom] *)
Definition wrapped (a : arena dnode) (b : nat) : option domnode :=
  match all_some (browser_node a) (children a b) with
  | Some cs => Some (DElem "html" [] cs)
  | None => None
  end.

(** ** Runs *)

(** common/patch_trace.rs:11-44 [PatchStepResult], [PatchTrace]; browser-proto's
    [PatchStep] and [ApplyPatchesResult] hold the same.  (The debug texts of the
    patches are left out.) *)
Inductive step :=
| StepOk (t : domnode)
| StepFailed (e : string) (t : domnode).
Record trace := mkTrace { tr_initial : domnode; tr_steps : list step }.

Definition skipped : string := "skipped due to previous error".

Section Runs.
  (** [format!("{:?}", e)] of a native error and of a [JsValue]. *)
  Variables show_native show_js : diff_error -> string.
  Variable parse_inner : string -> list htree.
  Variables valid_elem valid_attr : string -> bool.
  Variable parse_template : string -> list htree.

  (** Both recorders: apply one patch at a time; after an error only note that the
      rest was skipped.  A panic ends the run. *)
  Section Record_.
    Variable apply1 : pstate -> patch -> presult.
    Variable look : pstate -> option domnode.
    Variable show : diff_error -> string.

    Fixpoint record_skipped (st : pstate) (ps : list patch) : outcome (list step) :=
      match ps with
      | [] => Val []
      | _ :: ps' =>
          match look st with
          | Some t => let! l := record_skipped st ps' in Val (StepFailed skipped t :: l)
          | None => Diverge
          end
      end.
    Fixpoint record (st : pstate) (ps : list patch) : outcome (list step) :=
      match ps with
      | [] => Val []
      | p :: ps' =>
          match apply1 st p with
          | (st', Val tt) =>
              match look st' with
              | Some t => let! l := record st' ps' in Val (StepOk t :: l)
              | None => Diverge
              end
          | (st', Fail e) =>
              match look st' with
              | Some t => let! l := record_skipped st' ps' in Val (StepFailed (show e) t :: l)
              | None => Diverge
              end
          | (_, Panic) => Panic
          | (_, Diverge) => Diverge
          end
      end.
  End Record_.

  (** common/patch_trace.rs:51-101 [PatchTrace::capture]; the patched document is
      read through [document_body_to_dom_node]. *)
  Definition capture (d : document) (ps : list patch) : outcome trace :=
    match document_tree d with
    | None => Diverge
    | Some t =>
        let! (d1, sl) := init_patch_slots d in
        let look := fun st : pstate => document_tree (mkDoc (fst st) (doc_root d1) (doc_doctype d1)) in
        let! steps := record (apply_patch parse_inner) look show_native (doc_arena d1, sl) ps in
        Val (mkTrace t steps)
    end.

  (** browser-wasm/src/lib.rs:310-390 [run_apply_patches], after the page was
      loaded: [b] is [document.body]. *)
  Definition browser_capture (a : arena dnode) (b : nat) (ps : list patch) : outcome trace :=
    match wrapped a b with
    | None => Diverge
    | Some t =>
        let! steps := record (b_apply_patch valid_elem valid_attr parse_template b)
                        (fun st => wrapped (fst st) b) show_js (a, []) ps in
        Val (mkTrace t steps)
    end.
End Runs.

(** common/patch_trace.rs:104-108 [all_succeeded] *)
Definition is_ok (s : step) : bool := match s with StepOk _ => true | StepFailed _ _ => false end.
Definition all_succeeded (t : trace) : bool := forallb is_ok (tr_steps t).

(** common/patch_trace.rs:111-118 [final_tree] *)
Definition final_tree (t : trace) : domnode :=
  match find is_ok (rev (tr_steps t)) with
  | Some (StepOk x) | Some (StepFailed _ x) => x
  | None => tr_initial t
  end.

Definition list_same {A} (f : A -> A -> bool) : list A -> list A -> bool :=
  fix go l l' :=
    match l, l' with
    | [], [] => true
    | x :: k, y :: k' => f x y && go k k'
    | _, _ => false
    end.

(** [DomNode]'s derived equality *)
Fixpoint domnode_eqb (x y : domnode) : bool :=
  match x, y with
  | DElem t l cs, DElem t' l' cs' =>
      String.eqb t t' && list_same (fun a b => String.eqb (fst a) (fst b) && String.eqb (snd a) (snd b)) l l' &&
      list_same domnode_eqb cs cs'
  | DText s, DText s' => String.eqb s s'
  | DComment s, DComment s' => String.eqb s s'
  | _, _ => false
  end.

(** common/patch_trace.rs:291-334: one step. *)
Definition same_step (n b : step) : bool :=
  match n, b with
  | StepOk t, StepOk t' => domnode_eqb t t'
  | StepFailed e _, StepFailed e' _ => String.eqb e e'
  | _, _ => false
  end.
(** common/patch_trace.rs:255-338 [compare_traces]: [true] for [None], no
    difference. *)
Definition same_traces (n b : trace) : bool :=
  domnode_eqb (tr_initial n) (tr_initial b) && list_same same_step (tr_steps n) (tr_steps b).

(** ** Targets *)

(** dom.rs:1082-1102 [parse_body_fragment]; [fragment_calls] are the callbacks of
    html5ever's [parse_fragment] with [body] as context. *)
Definition parse_body_fragment (fragment_calls : string -> list sink_call) (s : string) : outcome document :=
  let! k := sink_run sink_new (fragment_calls s) in Val (sink_finish k).

Section Filter.
  (** common/mod.rs:568-591 [is_valid_attr_name], [is_valid_tag_name] *)
  Variables valid_attr_name valid_tag_name : string -> bool.
  Definition names_ok (l : attrs) : bool := forallb (fun kv => valid_attr_name (q_local (fst kv))) l.
  (** common/mod.rs:629-646, 663-675 *)
  Fixpoint content_ok (c : icontent) : bool :=
    match c with
    | ICElem tag ats cs => valid_tag_name tag && names_ok ats && forallb content_ok cs
    | _ => true
    end.
  (** common/mod.rs:594-627, 649-661 *)
  Definition patch_ok (p : patch) : bool :=
    match p with
    | PInsertElement _ tag ats cs _ => valid_tag_name tag && names_ok ats && forallb content_ok cs
    | PSetAttribute _ q _ | PRemoveAttribute _ q => valid_attr_name (q_local q)
    | PUpdateProps _ l =>
        forallb (fun c => match pc_name c with PAttr q => valid_attr_name (q_local q) | _ => true end) l
    | _ => true
    end.
  (** common/mod.rs:678-680 [patches_are_valid_for_dom] *)
  Definition patches_valid (ps : list patch) : bool := forallb patch_ok ps.
End Filter.

(** How a target ends.  [FzPassed]: it returns after the last comparison. *)
Inductive fuzz_verdict := FzSkipped | FzPassed | FzDiffFailed | FzInitialTrees | FzTraces | FzApplyFailed | FzBodies | FzPages.

Section Targets.
  Context {H : Type}.
  Variables (heqb : H -> H -> bool) (hcomb : hkind -> option string -> list H -> H) (h0 : H).
  Variables show_native show_js : diff_error -> string.
  Variable parse_inner : string -> list htree.
  Variables valid_elem valid_attr : string -> bool.
  Variable parse_template : string -> list htree.
  Variables valid_attr_name valid_tag_name : string -> bool.
  (** [str::trim] gives the empty string *)
  Variable blank : string -> bool.

  (** apply_parity.rs:23-123, from the documents on: [old] and [new] as
      [parse_body_fragment] left them, the browser's page [a] with the body [b]
      after [set_inner_html].  A panic while patches are applied is the outcome's. *)
  Definition parity_target (old new : document) (a : arena dnode) (b : nat) : outcome fuzz_verdict :=
    match document_tree old with
    | None => Diverge
    | Some t =>
        match diff heqb hcomb h0 old new with
        | Fail _ => Val FzDiffFailed
        | Panic => Panic
        | Diverge => Diverge
        | Val ps =>
            if negb (patches_valid valid_attr_name valid_tag_name ps) then Val FzSkipped
            else
              let! bt := browser_capture show_js valid_elem valid_attr parse_template a b ps in
              match serialize_inner_html a b with
              | None => Diverge
              | Some s =>
                  if blank s then Val FzSkipped
                  else if negb (domnode_eqb t (tr_initial bt)) then Val FzInitialTrees
                  else
                    let! nt := capture show_native parse_inner old ps in
                    Val (if same_traces nt bt then FzPassed else FzTraces)
              end
        end
    end.

  (** apply.rs:17-61, from the documents on.  The document patched by [capture] is
      the one that [apply_patches] leaves when every step succeeded and there was a
      step; without a step [init_patch_slots] has run all the same. *)
  Definition captured (d : document) (ps : list patch) : outcome document :=
    let! (d1, sl) := init_patch_slots d in
    let '((a, _), _) := apply_all parse_inner (doc_arena d1, sl) ps in
    Val (mkDoc a (doc_root d1) (doc_doctype d1)).
  Definition apply_target (old new : document) : outcome fuzz_verdict :=
    match diff heqb hcomb h0 old new with
    | Fail _ => Val FzDiffFailed
    | Panic => Panic
    | Diverge => Diverge
    | Val ps =>
        let! t := capture show_native parse_inner old ps in
        if negb (all_succeeded t) then Val FzApplyFailed
        else
          let! d := captured old ps in
          match to_body_html d, to_body_html new with
          | Some x, Some y => Val (if String.eqb x y then FzPassed else FzBodies)
          | _, _ => Diverge
          end
    end.

  (** apply_structured.rs:52-67, from the documents on: the whole pages are compared,
      without their doctypes. *)
  Definition structured_target (old new : document) : outcome fuzz_verdict :=
    match diff heqb hcomb h0 old new with
    | Fail _ => Val FzDiffFailed
    | Panic => Panic
    | Diverge => Diverge
    | Val ps =>
        match apply_patches parse_inner old ps with
        | (_, Fail _) => Val FzApplyFailed
        | (_, Panic) => Panic
        | (_, Diverge) => Diverge
        | (d, Val _) =>
            match to_html_without_doctype d, to_html_without_doctype new with
            | Some x, Some y => Val (if String.eqb x y then FzPassed else FzPages)
            | _, _ => Diverge
            end
        end
    end.
End Targets.
