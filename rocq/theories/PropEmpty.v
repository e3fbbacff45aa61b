(** Property theorem C42: the diff is empty exactly for equal pages. *)
From stdpp Require Import list_numbers.
From Verif Require Import Base Arena Matching Chawathe Dom HtmlDiff ArenaProofs ArenaOps TreeProofs DomTree BuildProofs
  DiffTotal AssembleProofs HashProofs SelfProofs EmptyProofs AttrProofs WfCheck Instances InstanceProofs PropMatch
  PropRoundtrip PropTotal PropSelf PropRestyle.
Local Open Scope string_scope.

Lemma body_parent d b : wf (doc_arena d) -> body d = Some b -> exists p, parent (doc_arena d) b = Some p.
Proof.
  intros W Hb. unfold body, body_in in Hb. apply find_some in Hb as [Hin _]. apply elem_of_list_In in Hin.
  exists (doc_root d). by apply (wf_pc _ W).
Qed.

(** C42: nothing is emitted only if the two bodies show the same page (and the
    new body has no attributes, see F1).  [same_page] is equality but for
    attributes inside opaque elements, which the hash does not cover. *)
Theorem empty_diff : forall {H} (heqb : H -> H -> bool) hcomb h0
    (old new : document) ob nb tag ns oats tag' ns' nats ts us,
  (forall h, heqb h h = true) -> collision_free heqb hcomb ->
  wf (doc_arena old) -> wf (doc_arena new) -> body old = Some ob -> body new = Some nb ->
  holds (doc_arena old) (HElem tag ns oats ts) ob ->
  holds (doc_arena new) (HElem tag' ns' nats us) nb ->
  Forall distinct_attrs ts -> Forall distinct_attrs us ->
  (diff heqb hcomb h0 old new = Val [] <->
   ns = ns' /\ nats = [] /\ Forall2 same_page ts us).
Proof.
  intros H heqb hcomb h0 old new ob nb tag ns oats tag' ns' nats ts us HR CF WO WN BO BN HO HN ND ND'.
  assert (Forall nodup_attrs ts) as N1 by (eapply Forall_impl; [done|apply distinct_attrs_nodup]).
  assert (Forall nodup_attrs us) as N2 by (eapply Forall_impl; [done|apply distinct_attrs_nodup]).
  unfold diff. rewrite BO, BN. split.
  - intros E. destruct (empty_diff_inv heqb hcomb h0 new (doc_arena old) ob nb tag ns oats tag' ns' nats ts us CF WO WN HO HN
      (body_parent new nb WN BN) N1 N2 E) as (_ & -> & -> & HS). done.
  - intros (-> & -> & HS).
    assert (tag = "body" /\ tag' = "body") as [-> ->].
    { apply holds_elem in HO as [HO _]. apply holds_elem in HN as [HN _]. unfold body, body_in in BO, BN.
      apply find_some in BO as [_ BO]. apply find_some in BN as [_ BN]. unfold has_tag, node_kind in BO, BN.
      rewrite HO in BO. rewrite HN in BN. cbn in BO, BN. apply String.eqb_eq in BO, BN. done. }
    by apply (page_diff_empty heqb hcomb h0 HR new (doc_arena old) ob nb "body" ns' oats ts us).
Qed.
Print Assumptions empty_diff.

(** Without opaque elements: exactly if the contents are equal. *)
Inductive no_opaque : htree -> Prop :=
| no_text s : no_opaque (HText s)
| no_comment s : no_opaque (HComment s)
| no_elem tag ns l cs : marked l = false -> Forall no_opaque cs -> no_opaque (HElem tag ns l cs).

Lemma same_page_refl h : same_page h h.
Proof.
  induction h as [s|s|tag ns l cs IH] using htree_ind'; constructor.
  induction cs as [|c cs IHc]; constructor; [apply IH; left|]. apply IHc. intros d Hd. apply IH. by right.
Qed.
Lemma same_page_equal h : forall h', no_opaque h -> same_page h h' -> h = h'.
Proof.
  induction h as [s|s|tag ns l cs IH] using htree_ind'; intros h' HN HS;
    inversion HS as [| |? ? ? ? cs' HF|? ? ? ? cs' HM _]; subst; try done.
  - f_equal. inversion HN as [| |? ? ? ? _ HNc]; subst. clear HN HS. induction HF as [|c c' cs cs' Hc HF IHc]; [done|].
    apply Forall_cons in HNc as [Nc NCs]. f_equal; [apply IH; [left|done|done]|]. apply IHc; [|done].
    intros d Hd. apply IH. by right.
  - inversion HN as [| |? ? ? ? HM' _]; subst. unfold marked in HM'. congruence.
Qed.

Theorem empty_diff_plain : forall {H} (heqb : H -> H -> bool) hcomb h0
    (old new : document) ob nb tag ns oats tag' ns' nats ts us,
  (forall h, heqb h h = true) -> collision_free heqb hcomb ->
  wf (doc_arena old) -> wf (doc_arena new) -> body old = Some ob -> body new = Some nb ->
  holds (doc_arena old) (HElem tag ns oats ts) ob ->
  holds (doc_arena new) (HElem tag' ns' nats us) nb ->
  Forall distinct_attrs ts -> Forall distinct_attrs us -> Forall no_opaque ts ->
  (diff heqb hcomb h0 old new = Val [] <-> ns = ns' /\ nats = [] /\ ts = us).
Proof.
  intros H heqb hcomb h0 old new ob nb tag ns oats tag' ns' nats ts us HR CF WO WN BO BN HO HN ND ND' NO.
  rewrite (empty_diff heqb hcomb h0 old new ob nb tag ns oats tag' ns' nats ts us) by done.
  assert (Forall2 same_page ts us <-> ts = us) as ->; [|done]. split.
  - intros HF. clear -HF NO. induction HF as [|c c' cs cs' Hc HF IH]; [done|]. apply Forall_cons in NO as [N1 N2].
    f_equal; [by apply same_page_equal|by apply IH].
  - intros ->. clear. induction us; constructor; [apply same_page_refl|done].
Qed.
Print Assumptions empty_diff_plain.

(** Two different documents, equal but for an attribute inside an opaque
    element: nothing is emitted.  With a text changed there, or with anything
    changed outside, something is. *)
Definition empty_ts (v w : string) : list htree :=
  [el "p" [tx "a"]; opaque_el [el_a "i" [ex_attr "id" v] [tx w]]; el_a "p" [ex_attr "class" "c"] []].
Example empty_diff_example :
  (forall h, phash_eqb h h = true) /\ collision_free phash_eqb PH /\
  wf (doc_arena (mk_doc [] (empty_ts "1" "x"))) /\ wf (doc_arena (mk_doc [] (empty_ts "2" "x"))) /\
  body (mk_doc [] (empty_ts "1" "x")) = Some 2 /\ body (mk_doc [] (empty_ts "2" "x")) = Some 2 /\
  holds (doc_arena (mk_doc [] (empty_ts "1" "x"))) (HElem "body" NsHtml [] (empty_ts "1" "x")) 2 /\
  holds (doc_arena (mk_doc [] (empty_ts "2" "x"))) (HElem "body" NsHtml [] (empty_ts "2" "x")) 2 /\
  Forall distinct_attrs (empty_ts "1" "x") /\ Forall distinct_attrs (empty_ts "2" "x") /\
  Forall2 same_page (empty_ts "1" "x") (empty_ts "2" "x") /\
  pdiff (mk_doc [] (empty_ts "1" "x")) (mk_doc [] (empty_ts "2" "x")) = Val [] /\
  pdiff (mk_doc [] (empty_ts "1" "x")) (mk_doc [] (empty_ts "1" "y")) <> Val [] /\
  pdiff (mk_doc [] (empty_ts "1" "x")) (mk_doc [] (empty_ts "1" "x" ++ [tx ""])) <> Val [].
Proof.
  split; [apply phash_eqb_refl|]. split; [apply phash_collision_free|].
  split; [apply wf_check_sound; vm_compute; reflexivity|]. split; [apply wf_check_sound; vm_compute; reflexivity|].
  split; [reflexivity|]. split; [reflexivity|]. split; [vm_compute; tauto|]. split; [vm_compute; tauto|].
  split; [repeat constructor; intros HI; inversion HI|]. split; [repeat constructor; intros HI; inversion HI|]. split.
  { constructor; [apply same_page_refl|]. constructor; [apply sp_opaque; [reflexivity|]; repeat constructor|].
    constructor; [apply same_page_refl|constructor]. }
  split; [vm_compute; reflexivity|]. split; vm_compute; discriminate.
Qed.
