(** Property theorem C10: diffing two documents with the same body content. *)
From stdpp Require Import list_numbers.
From Verif Require Import Base Arena Matching Chawathe Dom HtmlDiff ArenaProofs DomTree BuildProofs
  DiffTotal AssembleProofs SelfProofs AttrProofs WfCheck Instances InstanceProofs PropMatch PropRoundtrip PropTotal.
Local Open Scope string_scope.

(** No element has two attributes of one name. *)
Inductive distinct_attrs : htree -> Prop :=
| da_text s : distinct_attrs (HText s)
| da_comment s : distinct_attrs (HComment s)
| da_elem tag ns ats cs : NoDup (map fst ats) -> Forall distinct_attrs cs -> distinct_attrs (HElem tag ns ats cs).

Lemma distinct_attrs_nodup h : distinct_attrs h -> nodup_attrs h.
Proof.
  induction h as [s|s|tag ns ats cs IH] using htree_ind'; intros HD; apply hall_eq; cbn [hkind_of hattrs tdata_of_h td_kind td_props hchildren].
  - split; [constructor|]. intros c Hc. by apply elem_of_nil in Hc.
  - split; [constructor|]. intros c Hc. by apply elem_of_nil in Hc.
  - inversion HD as [| |? ? ? ? H1 H2]; subst. split; [done|]. intros c Hc. apply IH; [done|].
    rewrite Forall_forall in H2. by apply H2.
Qed.

(** Two documents, opaque elements included, whose bodies have the same tag and
    the same content: the only patch says all attributes of the new body.  (The
    attributes of the old body are not considered, see F1.) *)
Theorem diff_same_content : forall {H} (heqb : H -> H -> bool) hcomb h0
    (old new : document) ob nb tag ns oats nats ts,
  (forall h, heqb h h = true) ->
  wf (doc_arena old) -> wf (doc_arena new) -> body old = Some ob -> body new = Some nb ->
  data (doc_arena old) ob = Some (mkD (NElem tag oats) ns) ->
  data (doc_arena new) nb = Some (mkD (NElem tag nats) ns) ->
  holds_list (doc_arena old) ts (children (doc_arena old) ob) ->
  holds_list (doc_arena new) ts (children (doc_arena new) nb) ->
  Forall distinct_attrs ts ->
  existsb (fun kv => String.eqb (q_local (fst kv)) "data-hotmeal-opaque") nats = false ->
  diff heqb hcomb h0 old new =
  Val (if Nat.eqb (length nats) 0 then []
       else [PUpdateProps [0] (map (fun kv => mkPC (PAttr (fst kv)) (Some (snd kv))) nats)]).
Proof.
  intros H heqb hcomb h0 old new ob nb tag ns oats nats ts HR WO WN BO BN DO DN HO HN HD Hop.
  unfold diff. rewrite BO, BN.
  rewrite (diff_same heqb hcomb h0 HR new (doc_arena old) ob nb tag ns oats nats ts); try done.
  - by destruct nats.
  - eapply Forall_impl; [done|apply distinct_attrs_nodup].
Qed.
Print Assumptions diff_same_content.

Lemma body_elem d b : body d = Some b -> exists tag ns l, data (doc_arena d) b = Some (mkD (NElem tag l) ns).
Proof.
  intros Hb. unfold body, body_in in Hb. apply find_some in Hb as [_ Ht]. unfold has_tag, node_kind in Ht.
  destruct (data (doc_arena d) b) as [[[] n]|]; try done. eauto.
Qed.

(** C10: the diff of a document with itself is empty. *)
Theorem diff_self_empty : forall {H} (heqb : H -> H -> bool) hcomb h0 (d : document),
  (forall h, heqb h h = true) -> proper d ->
  (forall b tag ns l, body d = Some b -> data (doc_arena d) b = Some (mkD (NElem tag l) ns) -> l = []) ->
  (forall i tag ns l, data (doc_arena d) i = Some (mkD (NElem tag l) ns) -> NoDup (map fst l)) ->
  diff heqb hcomb h0 d d = Val [].
Proof.
  intros H heqb hcomb h0 d HR PD HB HN. destruct (body d) as [b|] eqn:EB; [|unfold diff; by rewrite EB].
  destruct (proper_children d b PD) as (ts & Hts).
  destruct (body_elem d b EB) as (tag & ns & l & Hd).
  pose proof (HB _ _ _ _ eq_refl Hd) as ->.
  rewrite (diff_same_content heqb hcomb h0 d d b b tag ns [] [] ts); try done; try apply PD.
  assert (forall h i, holds (doc_arena d) h i -> distinct_attrs h) as HDI.
  { induction h as [s|s|tg n ats cs IH] using htree_ind'; intros i Hi; constructor.
    - apply holds_elem in Hi as [Hi _]. by eapply HN.
    - apply holds_elem in Hi as [_ Hi]. apply Forall_forall. intros c Hc. apply elem_of_list_lookup in Hc as [k Hk].
      destruct (Forall2_lookup_l _ _ _ _ _ Hi Hk) as (j & _ & Hj).
      apply (IH c) with j; [by eapply elem_of_list_lookup_2|done]. }
  apply Forall_forall. intros h Hh. destruct (Forall2_in_l _ _ _ _ Hts Hh) as (i & _ & Hi). by eapply HDI.
Qed.
Print Assumptions diff_self_empty.

Lemma phash_eqb_refl : forall h, phash_eqb h h = true.
Proof.
  fix IH 1. intros [k t hs|]; [|done]. cbn [phash_eqb]. rewrite (proj2 (hkind_eqb_eq k k) eq_refl).
  rewrite (proj2 (Instances.ostring_eqb_eq t t) eq_refl). cbn [andb]. induction hs as [|h hs IHh]; [done|].
  by rewrite (IH h), IHh.
Qed.

(** Many equal subtrees, nested opaque elements, attributes. *)
Definition self_ex : document := mk_doc [el "title" [tx "t"]]
  [el "p" [tx "a"]; el "p" [tx "a"]; el "p" [el "p" [tx "a"]; tx "a"; tx "a"];
   opaque_el [el "i" [opaque_el [tx "x"]]; tx "in"]; opaque_el [el "i" [opaque_el [tx "x"]]; tx "in"];
   el_a "a" [ex_attr "href" "/"; ex_attr "id" "k"] [HComment "c"]; tx ""].
Definition nodup_keys_at (d : document) (i : nat) : bool :=
  match node_kind (doc_arena d) i with
  | Some (NElem _ l) => qlist_eqb (qdedup (keys l)) (keys l)
  | _ => true
  end.
Lemma nodup_keys_check d : forallb (nodup_keys_at d) (seq 0 (length (doc_arena d))) = true ->
  forall i tag ns l, data (doc_arena d) i = Some (mkD (NElem tag l) ns) -> NoDup (map fst l).
Proof.
  intros HC i tag ns l Hd. rewrite forallb_forall in HC.
  assert (nodup_keys_at d i = true) as HE.
  { apply HC. apply in_seq. pose proof (data_lt _ _ _ Hd). lia. }
  unfold nodup_keys_at, node_kind in HE. rewrite Hd in HE. cbn [d_kind option_map] in HE. apply qlist_eqb_eq in HE.
  change (NoDup (keys l)). rewrite <- HE. apply qdedup_nodup.
Qed.
Example diff_self_example :
  (forall h, phash_eqb h h = true) /\ proper self_ex /\
  (forall b tag ns l, body self_ex = Some b -> data (doc_arena self_ex) b = Some (mkD (NElem tag l) ns) -> l = []) /\
  (forall i tag ns l, data (doc_arena self_ex) i = Some (mkD (NElem tag l) ns) -> NoDup (map fst l)) /\
  length (doc_arena self_ex) = 27 /\ pdiff self_ex self_ex = Val [].
Proof.
  split; [apply phash_eqb_refl|]. split; [apply proper_mk_doc; vm_compute; reflexivity|]. split.
  { intros b tag ns l Hb Hd. vm_compute in Hb. injection Hb as <-. vm_compute in Hd. congruence. }
  split.
  { apply nodup_keys_check. vm_compute; reflexivity. }
  split; vm_compute; reflexivity.
Qed.

(** The documents excluded: a body with attributes; an element with two
    attributes of one name (which the parser never produces). *)
Definition with_body_attrs (l : attrs) (d : document) : document :=
  mkDoc (<[2 := mkNode (elem "body" l NsHtml) (Some 0) (children (doc_arena d) 2)]> (doc_arena d)) (doc_root d) (doc_doctype d).

Theorem diff_self_body_attributes_refuted : exists d,
  proper d /\ (forall i tag ns l, data (doc_arena d) i = Some (mkD (NElem tag l) ns) -> NoDup (map fst l)) /\
  pdiff d d <> Val [].
Proof.
  exists (with_body_attrs [ex_attr "class" "dark"] (mk_doc [] [el "p" []])). split.
  { split.
    - apply wf_check_sound. vm_compute; reflexivity.
    - intros [|[|[|[|i]]]] s Hk; vm_compute in Hk |- *; destruct Hk as [Hk|Hk]; congruence.
    - intros [|[|[|[|i]]]] s Hk; vm_compute in Hk |- *; congruence. }
  split; [|vm_compute; discriminate].
  intros [|[|[|[|i]]]] tag ns l Hd; vm_compute in Hd; try discriminate; injection Hd as <- <- <-; repeat constructor;
    intros Hin; by apply elem_of_nil in Hin.
Qed.
Print Assumptions diff_self_body_attributes_refuted.

Theorem diff_self_duplicate_attributes_refuted : exists d,
  proper d /\ data (doc_arena d) 2 = Some (mkD (NElem "body" []) NsHtml) /\ body d = Some 2 /\ pdiff d d <> Val [].
Proof.
  exists (mk_doc [] [el_a "p" [ex_attr "id" "1"; ex_attr "id" "2"] []]).
  split; [apply proper_mk_doc; vm_compute; reflexivity|]. split; [reflexivity|]. split; [reflexivity|].
  vm_compute; discriminate.
Qed.
Print Assumptions diff_self_duplicate_attributes_refuted.
