(** Property theorems C35: content changes of opaque elements. *)
From stdpp Require Import list_numbers.
From Verif Require Import Base Arena Matching Chawathe Dom HtmlDiff ArenaProofs ArenaOps DomTree
  BuildProofs ShadowProofs SimProofs RoundProofs MatchProofs TreeProofs DtreeProofs ApplyProofs DiffTotal
  AssembleProofs OpaqueProofs Instances InstanceProofs HashProofs PropMatch PropRoundtrip PropTotal.
Local Open Scope string_scope.

Definition opaque_change (p : patch) : list (path * string) :=
  match p with POpaqueChanged q s => [(q, s)] | _ => [] end.

(** ** C35 *)

(** The [OpaqueChanged] patches of a diff are exactly those of the matched
    pairs whose new element carries the opaque attribute and whose hashes
    differ, one each, in the order of the matching.  Each carries the new inner
    HTML and a path that leads, in the old document, to the old element
    ([f] maps the nodes of the tree that is diffed to the nodes of the old
    document). *)
Theorem opaque_changes_exact : forall {H} (heqb : H -> H -> bool) hcomb h0
    (old new : document) ob nb t ta tb m ps,
  proper old -> proper new -> body old = Some ob -> body new = Some nb ->
  build_tree (doc_arena old) ob = Val t ->
  mk_dtree hcomb h0 (fun d => d) t 0 = Val ta ->
  mk_dtree hcomb h0 tdata_of (doc_arena new) nb = Val tb ->
  html_matching heqb ta tb = Val m ->
  diff heqb hcomb h0 old new = Val ps ->
  NoDup (map fst (m_pairs m)) /\
  exists f : nat -> nat,
    f 0 = ob /\
    (forall x, x < length t -> children (doc_arena old) (f x) = map f (children t x)) /\
    (forall x y, x < length t -> y < length t -> f x = f y -> x = y) /\
    Forall2 (fun p e =>
        snd p < length (doc_arena new) /\ fst p < length t /\
        navigate_slot_path (doc_arena old) [(0, ob)] (fst e) = Val (f (fst p)) /\
        serialize_inner_html (doc_arena new) (snd p) = Some (snd e))
      (List.filter (fun p => is_opaque_props (dprops tdata_of (doc_arena new) (snd p))
                             && negb (heqb (t_hash ta (fst p)) (t_hash tb (snd p)))) (m_pairs m))
      (flat_map opaque_change ps).
Proof.
  intros H heqb hcomb h0 old new ob nb t ta tb m ps PO PN BO BN Et Ea Eb Em Ed.
  destruct (body_data _ _ BO) as (od & Hod). destruct (body_data _ _ BN) as (nd & Hnd).
  destruct (proper_children old ob PO) as (ts & Hts).
  destruct (build_tree_ok (doc_arena old) ob _ ts (pp_wf _ PO) Hod Hts) as (t' & Et' & BT).
  rewrite Et in Et'. injection Et' as <-.
  destruct (built_tree t _ ts BT) as (ra & Hra & Hta & Hia).
  assert (0 < length t) as L0 by (eapply data_lt; apply BT).
  destruct (mk_dtree_presents hcomb h0 (fun d => d) t ra (bt_wf _ _ _ BT)) as (ta' & Ea' & PA); [by rewrite Hra|done|].
  rewrite Hra, Ea in Ea'. injection Ea' as <-.
  destruct (tree_exists (doc_arena new) nb (pp_wf _ PN)) as (rb & Hrb & Htb).
  destruct (mk_dtree_presents hcomb h0 tdata_of (doc_arena new) rb (pp_wf _ PN)) as (tb' & Eb' & PB).
  { rewrite Hrb. by eapply data_lt. } { done. }
  rewrite Hrb, Eb in Eb'. injection Eb' as <-.
  destruct (html_matching_pairs heqb ta tb ra rb m PA PB Em) as (MQ & MF).
  assert (NoDup (map fst (m_pairs m))) as ND.
  { unfold html_matching in Em.
    destruct (compute_matching heqb hkind_eqb props_sim diff_config ta tb) as [m0| | |] eqn:E0; try done.
    cbn [obind] in Em. pose proof (compute_matching_bijection _ _ _ _ _ _ _ E0) as B0.
    destruct (hkind_eqb _ _); cbn [andb] in Em; [|injection Em as <-; apply B0].
    destruct (contains_a m0 (t_root ta)) eqn:Ec; cbn [negb] in Em; injection Em as <-; [apply B0|].
    cbn [m_add m_pairs]. rewrite map_app. apply NoDup_app. split; [apply B0|]. split; [|cbn; apply NoDup_singleton].
    intros x Hx. cbn. rewrite elem_of_list_singleton. intros ->. apply contains_a_false in Ec.
    apply elem_of_list_In, in_map_iff in Hx as ([x y] & Hx & Hin). cbn in Hx. subst x.
    apply elem_of_list_In, (bij_fwd _ B0) in Hin. congruence. }
  split; [done|].
  destruct (shadow_new_full t (bt_wf _ _ _ BT) L0 (bt_root_parent _ _ _ BT)) as (sh & Esh & FS).
  exists (start_f sh (doc_arena old) ob).
  unfold diff in Ed. rewrite BO, BN in Ed.
  destruct (diff_opaque_part heqb hcomb h0 new (doc_arena old) ob nb t ta tb m ps Et Ea Eb Em Ed)
    as (ps1 & ps2 & sh' & -> & Esh' & N1 & F2).
  rewrite Esh in Esh'. injection Esh' as <-.
  assert (ob < length (doc_arena old)) as Lob by by eapply data_lt.
  split; [by eapply start_f_root|].
  split. { intros x Hx. eapply start_children_exact; try done; by apply holds_shows_list. }
  split. { intros x y Hx Hy. eapply start_inj; try done; [apply PO|by apply holds_shows_list]. }
  assert (flat_map opaque_change (ps1 ++ ps2) = flat_map opaque_change ps2) as ->.
  { rewrite flat_map_app. change (flat_map opaque_change ps1) with (flat_map opaque_part ps1). by rewrite N1. }
  destruct (mk_dtree_fields _ _ _ _ _ _ Eb) as (_ & _ & _ & _ & _ & _ & _ & _ & FOb).
  assert (List.filter (changed_opaque heqb ta tb) (m_pairs m) =
    List.filter (fun p => is_opaque_props (dprops tdata_of (doc_arena new) (snd p))
                             && negb (heqb (t_hash ta (fst p)) (t_hash tb (snd p)))) (m_pairs m)) as EF.
  { apply List.filter_ext. intros p. unfold changed_opaque. by rewrite FOb. }
  rewrite EF in F2. clear EF.
  assert (forall p, p ∈ List.filter (fun p => is_opaque_props (dprops tdata_of (doc_arena new) (snd p))
                             && negb (heqb (t_hash ta (fst p)) (t_hash tb (snd p)))) (m_pairs m) ->
            fst p < length t /\ snd p < length (doc_arena new)) as HL.
  { intros [x y] Hin. apply elem_of_list_In, filter_In in Hin as [Hin _]. apply elem_of_list_In in Hin.
    destruct (MQ x y Hin) as [Hx Hy]. cbn [fst snd]. split.
    - rewrite (pr_iter _ _ PA) in Hx. by apply Hia.
    - rewrite (pr_iter _ _ PB) in Hy. eapply preorder_lt; [apply PN|exact Htb| |exact Hy]. rewrite Hrb. by eapply data_lt. }
  revert HL F2. generalize (List.filter (fun p => is_opaque_props (dprops tdata_of (doc_arena new) (snd p))
                             && negb (heqb (t_hash ta (fst p)) (t_hash tb (snd p)))) (m_pairs m)).
  intros l HL F. clear Ed N1. induction F as [|[x y] e l ps2 (q & s & Hq & Hs & ->) F IH]; cbn [flat_map]; [constructor|].
  cbn [opaque_change app]. destruct (HL (x, y) ltac:(left)) as [Hx Hy]. cbn [fst snd] in *.
  constructor; [|apply IH; intros p Hp; apply HL; by right]. cbn [fst snd].
  split; [done|]. split; [done|]. split; [|done].
  destruct (start_corr t _ ts sh (fun l => l) (doc_arena old) ob BT FS (holds_shows_list _ _ _ Hts) Lob x Hx) as [(q' & Hq' & Hn) _].
  rewrite (spath_compute _ _ _ (fs_wf _ _ FS) Hq') in Hq. injection Hq as <-. done.
Qed.
Print Assumptions opaque_changes_exact.

(** Applying an [OpaqueChanged] replaces the children of the addressed element
    by what the parser makes of the content, and nothing else: if the parser
    reads back what was serialized, the element gets the new inner HTML. *)
Theorem opaque_change_applied : forall parse_inner (a : arena dnode) sl q n s,
  wf a -> navigate_slot_path a sl q = Val n -> (forall k v, slot_get sl k = Some v -> v < length a) ->
  exists a', apply_patch parse_inner (a, sl) (POpaqueChanged q s) = ((a', sl), Val tt) /\ wf a' /\
    (forall j, j < length a -> data a' j = data a j) /\
    (forall j, j < length a -> j <> n -> children a' j = children a j) /\
    (ser_ts false (parse_inner s) = s -> serialize_inner_html a' n = Some s).
Proof.
  intros parse a sl q n s W Hq Hs. assert (n < length a) as Hn by by eapply navigate_slot_lt.
  destruct (apply_opaque parse a sl q n s W Hq Hn) as (a' & E & W' & _ & HL & D & C).
  exists a'. split; [done|]. split; [done|]. split; [done|]. split; [done|].
  intros Hp. rewrite (serialize_inner_holds a' _ n W' HL). by rewrite Hp.
Qed.
Print Assumptions opaque_change_applied.

(** The paths are those of the old document, while the patch is applied after
    all others: here the content is delivered to a paragraph. *)
Theorem opaque_path_stale_refuted : exists old new ps parse_inner,
  pdiff old new = Val ps /\ ser_ts false (parse_inner "<i>changed</i>") = "<i>changed</i>" /\
  to_body_html new =
    Some "<h1>t</h1><p>a</p><div data-hotmeal-opaque=""""><i>changed</i></div>" /\
  snd (apply_patches parse_inner old ps) = Val tt /\
  to_body_html (fst (apply_patches parse_inner old ps)) =
    Some "<h1>t</h1><p><i>changed</i></p><div data-hotmeal-opaque=""""><i>in</i></div>".
Proof.
  exists (mk_doc [] [el "p" [tx "a"]; opaque_el [el "i" [tx "in"]]]),
    (mk_doc [] [el "h1" [tx "t"]; el "p" [tx "a"]; opaque_el [el "i" [tx "changed"]]]).
  eexists. exists (fun _ => [el "i" [tx "changed"]]).
  split; [vm_compute; reflexivity|]. repeat split; vm_compute; reflexivity.
Qed.
Print Assumptions opaque_path_stale_refuted.

(** Attributes do not enter the hash: a change of an attribute inside an opaque
    element is not delivered. *)
Theorem opaque_attribute_change_lost_refuted : exists old new,
  to_body_html old <> to_body_html new /\ pdiff old new = Val [].
Proof.
  exists (mk_doc [] [opaque_el [el_a "img" [ex_attr "src" "1"] []]]),
    (mk_doc [] [opaque_el [el_a "img" [ex_attr "src" "2"] []]]).
  split; [vm_compute; discriminate|vm_compute; reflexivity].
Qed.
Print Assumptions opaque_attribute_change_lost_refuted.

(** Two opaque elements of which one changes. *)
Definition op_old : document := mk_doc [] [el "p" [opaque_el [tx "same"]]; opaque_el [el "i" [tx "in"]]].
Definition op_new : document := mk_doc [] [el "p" [opaque_el [tx "same"]]; opaque_el [el "i" [tx "changed"]; tx "!"]].
Example opaque_example :
  proper op_old /\ proper op_new /\
  pdiff op_old op_new = Val [POpaqueChanged [0; 1] "<i>changed</i>!"] /\
  to_body_html (fst (apply_patches (fun _ => [el "i" [tx "changed"]; tx "!"]) op_old
     [POpaqueChanged [0; 1] "<i>changed</i>!"])) = to_body_html op_new.
Proof.
  split; [apply proper_mk_doc; vm_compute; reflexivity|].
  split; [apply proper_mk_doc; vm_compute; reflexivity|].
  split; vm_compute; reflexivity.
Qed.
