(** C69: the patches carry no more text than the new page. *)
From stdpp Require Import list_numbers.
From Verif Require Import Base Arena Matching Chawathe Dom HtmlDiff ArenaProofs DomTree DiffTotal BuildProofs RoundProofs PayloadProofs CountProofs
  Instances InstanceProofs PropRoundtrip PropSelf PropTotal SizeProofs.
Local Open Scope string_scope.

(** [patches_size] ([SizeProofs.v]): all tags, attribute names, attribute values and
    texts in the patches, counted in bytes.  For every old page whatever, every hash,
    also colliding ones: together they are at most as long as the HTML of the body of
    the new page, and the attributes of the body itself once more.  So no node's text
    is sent twice, and content that is moved is not sent at all.

    Assumed of the new page: no element in the body is marked opaque, and void
    elements ([<br>]) have no children, so that the HTML shows all there is. *)
Theorem payload_bounded : forall {H} (heqb : H -> H -> bool) hcomb h0 old new nb t l ps html,
  proper new -> body new = Some nb -> node_kind (doc_arena new) nb = Some (NElem t l) ->
  (forall i t' l', inside (doc_arena new) nb i -> node_kind (doc_arena new) i = Some (NElem t' l') ->
    ~ Exists (fun kv => q_local (fst kv) = "data-hotmeal-opaque") l') ->
  voids_empty (doc_arena new) nb -> serialize_node (doc_arena new) nb = Some html ->
  diff heqb hcomb h0 old new = Val ps ->
  patches_size ps <= String.length html + attrs_size l.
Proof.
  intros H heqb hcomb h0 old new nb t l ps html PN Eb Ek HO HV Es E.
  eapply (diff_size heqb hcomb h0 old new nb t l ps html); try done.
  intros i t' l' Hi Ei. destruct (is_opaque_props l') eqn:Eo; [|done]. exfalso. apply (HO i t' l' Hi Ei).
  unfold is_opaque_props in Eo. apply existsb_exists in Eo as (kv & Hkv & Ekv). apply Exists_exists. exists kv.
  split; [by apply elem_of_list_In|]. by apply String.eqb_eq in Ekv.
Qed.
Print Assumptions payload_bounded.

(** A page without body: nothing is sent. *)
Theorem payload_without_body : forall {H} (heqb : H -> H -> bool) hcomb h0 old new ps,
  body new = None -> diff heqb hcomb h0 old new = Val ps -> patches_size ps = 0.
Proof.
  intros H heqb hcomb h0 old new ps Eb E. unfold diff in E. rewrite Eb in E. destruct (body old) as [ob|]; [|by injection E as <-].
  injection E as <-. unfold patches_size. generalize (rev (seq 0 (length (children (doc_arena old) ob)))) as l. intros l.
  induction l as [|k l IH]; [done|]. cbn [map patch_size]. rewrite sum_cons. exact IH.
Qed.
Print Assumptions payload_without_body.

(** Elements that become opaque, one inside the other: the children of the outer one
    are still paired by position, so the content of the inner one is sent with the outer
    one and again by itself. *)
Definition size_mark : attr := ex_attr "data-hotmeal-opaque" "".
Fixpoint size_nest (l : attrs) (n : nat) (c : list htree) : list htree :=
  match n with 0 => c | S n => [el_a "div" l (size_nest l n c)] end.
Definition size_text : string :=
  "a text that stays the same; every level of nesting sends it anew; it is long enough for the sum to exceed the whole page".
Theorem payload_nested_opaque_refuted : exists old new html ps,
  serialize_node (doc_arena new) 2 = Some html /\ body new = Some 2 /\ pdiff old new = Val ps /\
  2 * String.length html <= patches_size ps.
Proof.
  exists (mk_doc [] (size_nest [ex_attr "class" "a"] 4 [tx size_text; el "p" [tx "y"]])),
    (mk_doc [] (size_nest [ex_attr "class" "a"; size_mark] 4 [tx size_text; el "p" [tx "z"]])).
  eexists _, _. split; [vm_compute; reflexivity|]. split; [vm_compute; reflexivity|]. split; [vm_compute; reflexivity|].
  apply Nat.leb_le. vm_compute. reflexivity.
Qed.
Print Assumptions payload_nested_opaque_refuted.

(** A page in which one paragraph is new, one attribute changed and the rest
    moved or kept.  The HTML of the new body has 89 bytes, the patches carry 16. *)
Definition size_old : document := mk_doc []
  [el "p" [tx "first"]; el_a "div" [ex_attr "class" "x"; ex_attr "id" "m"] [el "b" [tx "bold"]; tx "three"]; el "br" []].
Definition size_new : document := mk_doc []
  [el_a "div" [ex_attr "class" "y"; ex_attr "id" "m"] [el "b" [tx "bold"]; tx "three"; el "br" []]; el "p" [tx "first"]; el "p" [tx "a & b"]].

Lemma voids_check a b : wf a ->
  forallb (fun i => match node_kind a i with
                    | Some (NElem t _) => negb (is_void_element t) || Nat.eqb (length (children a i)) 0
                    | _ => true
                    end) (seq 0 (length a)) = true -> voids_empty a b.
Proof.
  intros W HF i t l _ Ek Ev. rewrite forallb_forall in HF.
  assert (i < length a) as Hi.
  { unfold node_kind, data in Ek. destruct (a !! i) eqn:E; [|done]. by eapply lookup_lt_Some. }
  specialize (HF i ltac:(apply in_seq; lia)). rewrite Ek, Ev in HF. cbn in HF. apply Nat.eqb_eq in HF.
  by apply length_zero_iff_nil.
Qed.

Example payload_example :
  proper size_new /\ body size_new = Some 2 /\ voids_empty (doc_arena size_new) 2 /\
  (forall i t l, inside (doc_arena size_new) 2 i -> node_kind (doc_arena size_new) i = Some (NElem t l) ->
    ~ Exists (fun kv => q_local (fst kv) = "data-hotmeal-opaque") l) /\
  option_map String.length (serialize_node (doc_arena size_new) 2) = Some 89 /\
  (match pdiff size_old size_new with Val ps => patches_size ps | _ => 0 end) = 16.
Proof.
  split; [apply proper_mk_doc; vm_compute; reflexivity|]. split; [vm_compute; reflexivity|].
  split; [apply voids_check; [apply proper_mk_doc; vm_compute; reflexivity|vm_compute; reflexivity]|].
  split; [|split; vm_compute; reflexivity].
  intros i t l _ Ek HE. apply Exists_exists in HE as (kv & Hkv & Ekv).
  assert (forallb (fun j => match node_kind (doc_arena size_new) j with
      | Some (NElem _ l) => negb (is_opaque_props l) | _ => true end) (seq 0 (length (doc_arena size_new))) = true) as HF by (vm_compute; reflexivity).
  rewrite forallb_forall in HF. assert (i < length (doc_arena size_new)) as Hi.
  { unfold node_kind, data in Ek. destruct (doc_arena size_new !! i) eqn:E; [|done]. by eapply lookup_lt_Some. }
  specialize (HF i ltac:(apply in_seq; lia)). rewrite Ek in HF. apply negb_true_iff in HF.
  assert (is_opaque_props l = true) as Ho; [|congruence]. apply existsb_exists. exists kv. split; [by apply elem_of_list_In|].
  by apply String.eqb_eq.
Qed.
