(** Property theorems C27: diffs between documents of which one has no body. *)
From stdpp Require Import list_numbers.
From Verif Require Import Base Arena Dom HtmlDiff ArenaProofs ArenaOps DomTree ApplyProofs
  BuildProofs DiffTotal Instances InstanceProofs HashProofs PropMatch PropRoundtrip PropTotal WfCheck BridgeProofs.
Local Open Scope string_scope.

Lemma find_agree {A} (f g : A -> bool) l : (forall x, x ∈ l -> f x = g x) -> find f l = find g l.
Proof.
  induction l as [|x l IH]; intros E; [done|]. cbn. rewrite <- (E x) by left.
  destruct (f x); [done|]. apply IH. intros y Hy. apply E. by right.
Qed.
Lemma find_none_all {A} (f : A -> bool) l x : find f l = None -> x ∈ l -> f x = false.
Proof. intros E Hx. apply (List.find_none f l); [done|]. by apply elem_of_list_In. Qed.

(** ** C27 *)

(** A body appears: the patches insert every child of the new body into the
    body that [ensure_body] adds. *)
Theorem body_added : forall {H} (heqb : H -> H -> bool) hcomb h0 parse_inner (old new : document) nb,
  wf (doc_arena old) -> doc_root old < length (doc_arena old) -> proper new ->
  body old = None -> body new = Some nb ->
  exists ps d' s, diff heqb hcomb h0 old new = Val ps /\
    apply_patches parse_inner old ps = (d', Val tt) /\ wf (doc_arena d') /\
    to_body_html d' = Some s /\ to_body_html new = Some s.
Proof.
  intros H heqb hcomb h0 parse old new nb W R P Bo Bn.
  destruct (proper_children new nb P) as (ts & Hts).
  pose proof (pp_wf _ P) as Wn.
  unfold diff. rewrite Bo, Bn. exists (insert_patches ts 0).
  assert (to_body_html new = Some (ser_ts false ts)) as En.
  { unfold to_body_html. rewrite Bn. by apply serialize_inner_holds. }
  destruct ts as [|h ts].
  { exists old, "". rewrite (insert_all_patches _ _ _ Wn Hts). split; [done|]. split; [done|].
    split; [done|]. split; [|done]. unfold to_body_html. by rewrite Bo. }
  pose proof (new_node_full (doc_arena old) (elem "body" [] NsHtml) W)
    as (W1 & L1 & O1 & C1 & D1 & Cj & Pj & Dj).
  set (a1 := fst (new_node (doc_arena old) (elem "body" [] NsHtml))) in *.
  set (b := length (doc_arena old)) in *.
  destruct (append_full a1 (doc_root old) b) as (a2 & E2 & K); [done|lia|lia|done| |].
  { apply leaf_not_above; [done|done|lia]. }
  assert (children a2 b = []) as Cb.
  { rewrite (lk_children _ _ _ _ _ K). destruct (Nat.eqb_spec b (doc_root old)); [lia|done]. }
  destruct (apply_insert_patches parse b (h :: ts) a2) as (a3 & E3 & E4);
    [apply K|rewrite (lk_len _ _ _ _ _ K); lia|].
  destruct (clone_under_all a2 b (map plain (h :: ts))) as (a3' & ids & E4' & CL);
    [apply K|rewrite (lk_len _ _ _ _ _ K); lia|].
  rewrite E4 in E4'. injection E4' as <-.
  exists (mkDoc a3 (doc_root old) (doc_doctype old)), (ser_ts false (h :: ts)).
  rewrite (insert_all_patches _ _ _ Wn Hts). split; [done|].
  split.
  { unfold apply_patches, init_patch_slots, ensure_body. rewrite Bo.
    change (new_node (doc_arena old) (elem "body" [] NsHtml)) with (a1, b). cbv beta iota.
    rewrite E2. cbn [obind doc_arena doc_root doc_doctype]. rewrite Cb in E3. cbn [length] in E3.
    cbn [insert_patches]. cbn [insert_patches] in E3. 
    match goal with |- context [apply_all parse ?s ?l] => change (apply_all parse s l = ((a3, [(0, b)]), Val tt)) in E3 end.
    by rewrite E3. }
  split; [apply CL|]. split; [|done].
  assert (body (mkDoc a3 (doc_root old) (doc_doctype old)) = Some b) as B3.
  { unfold body, body_in. cbn [doc_arena doc_root].
    assert (doc_root old < length a2) by (rewrite (lk_len _ _ _ _ _ K); lia).
    assert (b < length a2) by (rewrite (lk_len _ _ _ _ _ K); lia).
    rewrite (cl_children _ _ _ _ _ CL) by done.
    destruct (Nat.eqb_spec (doc_root old) b); [lia|].
    rewrite (lk_children _ _ _ _ _ K), Nat.eqb_refl, Cj.
    rewrite (find_agree _ (fun i => if Nat.eqb i b then true else has_tag (doc_arena old) "body" i)).
    - assert (forall l, (forall x, x ∈ l -> x <> b /\ has_tag (doc_arena old) "body" x = false) ->
        find (fun i => if Nat.eqb i b then true else has_tag (doc_arena old) "body" i) (l ++ [b]) = Some b) as Hf.
      { induction l as [|x l IH]; intros Hl; cbn.
        - by rewrite Nat.eqb_refl.
        - destruct (Hl x ltac:(left)) as [Hx Hx']. destruct (Nat.eqb_spec x b); [done|]. rewrite Hx'.
          apply IH. intros y Hy. apply Hl. by right. }
      apply Hf. intros x Hx. split.
      + pose proof (wf_child_lt _ _ _ W Hx). lia.
      + by eapply find_none_all.
    - intros x Hx. apply elem_of_app in Hx as [Hx|Hx].
      + pose proof (wf_child_lt _ _ _ W Hx). destruct (Nat.eqb_spec x b); [lia|].
        unfold has_tag, node_kind. rewrite (cl_data _ _ _ _ _ CL) by lia.
        rewrite (lk_data _ _ _ _ _ K), Dj by lia. done.
      + apply elem_of_list_singleton in Hx as ->. rewrite Nat.eqb_refl.
        unfold has_tag, node_kind. rewrite (cl_data _ _ _ _ _ CL) by lia.
        rewrite (lk_data _ _ _ _ _ K), D1. done. }
  unfold to_body_html. rewrite B3. cbn [doc_arena].
  rewrite <- ser_ts_plain. apply serialize_inner_holds; [apply CL|].
  rewrite (cl_children _ _ _ _ _ CL), Nat.eqb_refl, Cb by (rewrite (lk_len _ _ _ _ _ K); lia).
  apply CL.
Qed.
Print Assumptions body_added.

(** The body disappears: the patches empty the body; nothing else changes. *)
Theorem body_removed : forall {H} (heqb : H -> H -> bool) hcomb h0 parse_inner (old new : document) ob,
  wf (doc_arena old) -> body old = Some ob -> body new = None ->
  exists ps d', diff heqb hcomb h0 old new = Val ps /\
    apply_patches parse_inner old ps = (d', Val tt) /\ wf (doc_arena d') /\
    body d' = Some ob /\ to_body_html d' = Some "" /\
    (forall j, j < length (doc_arena old) -> data (doc_arena d') j = data (doc_arena old) j) /\
    (forall j, j < length (doc_arena old) -> j <> ob ->
       children (doc_arena d') j = children (doc_arena old) j).
Proof.
  intros H heqb hcomb h0 parse old new ob W Bo Bn.
  unfold diff. rewrite Bo, Bn.
  set (n := length (children (doc_arena old) ob)).
  exists (map (fun pos => PRemove [0; pos]) (rev (seq 0 n))).
  destruct (body_data _ _ Bo) as (x & Hx). apply data_lt in Hx.
  destruct (apply_removes parse ob n (doc_arena old)) as (a' & E & W' & L & D & C & B); [done|done|lia| |].
  { intros i c Hi Hc. apply lookup_lt_Some in Hc. lia. }
  exists (mkDoc a' (doc_root old) (doc_doctype old)). split; [done|].
  assert (ob ∈ children (doc_arena old) (doc_root old)) as Hin.
  { apply find_some in Bo as [Hin _]. by apply elem_of_list_In. }
  assert (doc_root old <> ob) as Hne.
  { intros E'. apply (wf_pc _ W) in Hin. rewrite <- E' in Hin. by apply (above_not_parent _ _ _ W Hin), above_refl. }
  assert (doc_root old < length (doc_arena old)) as Hr by by eapply children_lt.
  assert (body (mkDoc a' (doc_root old) (doc_doctype old)) = Some ob) as B'.
  { rewrite <- Bo. unfold body, body_in. cbn [doc_arena doc_root]. rewrite C by done.
    apply find_agree. intros j Hj. unfold has_tag, node_kind. rewrite D; [done|]. by eapply wf_child_lt. }
  split.
  { unfold apply_patches. destruct (map _ _) eqn:Em.
    - destruct n; [|rewrite seq_S, rev_app_distr in Em; done]. cbn in E. injection E as <-. by destruct old.
    - unfold init_patch_slots, ensure_body. rewrite Bo. cbn [obind].
      match goal with |- context [apply_all parse ?s ?l] => change (apply_all parse s l = ((a', [(0, ob)]), Val tt)) in E end.
      by rewrite E. }
  split; [done|]. split; [done|].
  split; [|done]. unfold to_body_html. rewrite B'. cbn [doc_arena].
  rewrite (serialize_inner_holds a' (replicate (length (children a' ob)) (HText "")) ob W').
  - f_equal. generalize (length (children a' ob)). induction n0; [done|]. cbn. done.
  - revert B. generalize (children a' ob). induction l as [|c l IH]; intros B; [constructor|].
    cbn. constructor; [apply B; left|]. apply IH. intros c' Hc'. apply B. by right.
Qed.
Print Assumptions body_removed.

Theorem no_bodies : forall {H} (heqb : H -> H -> bool) hcomb h0 parse_inner (old new : document),
  body old = None -> body new = None ->
  diff heqb hcomb h0 old new = Val [] /\ apply_patches parse_inner old [] = (old, Val tt).
Proof. intros. unfold diff. by rewrite H0, H1. Qed.
Print Assumptions no_bodies.

(** A frameset-like page without body, and a page with nested content,
    foreign elements, comments and an opaque element. *)
Definition headless : document :=
  mkDoc [mkNode (elem "html" [] NsHtml) None [1; 3];
         mkNode (elem "head" [] NsHtml) (Some 0) [2];
         mkNode (text_node "t") (Some 1) [];
         mkNode (comment_node "no body") (Some 0) []] 0 None.
Definition bridged : document :=
  mk_doc [] [tx "a<"; el_a "div" [ex_attr "k" "1"] [HElem "svg" NsSvg [] [el "g" []]; HComment "c"];
             opaque_el [tx "raw"]; tx ""].
Example bridge_example :
  wf (doc_arena headless) /\ proper bridged /\ body headless = None /\ body bridged = Some 2 /\
  (exists ps, pdiff headless bridged = Val ps /\ length ps = 4 /\
     snd (apply_patches no_parser headless ps) = Val tt /\
     to_body_html (fst (apply_patches no_parser headless ps)) = to_body_html bridged /\
     to_html (fst (apply_patches no_parser headless ps)) =
       Some "<html><head>t</head><!--no body--><body>a&lt;<div k=""1""><svg><g></g></svg><!--c--></div><div data-hotmeal-opaque="""">raw</div></body></html>") /\
  (exists ps, pdiff bridged headless = Val ps /\ length ps = 4 /\
     to_html (fst (apply_patches no_parser bridged ps)) =
       Some "<!DOCTYPE html><html><head></head><body></body></html>") /\
  pdiff headless headless = Val [].
Proof.
  split; [apply wf_check_sound; vm_compute; reflexivity|].
  split; [apply proper_mk_doc; vm_compute; reflexivity|].
  split; [reflexivity|]. split; [vm_compute; reflexivity|].
  split; [eexists; split; [vm_compute; reflexivity|repeat split; vm_compute; reflexivity]|].
  split; [eexists; split; [vm_compute; reflexivity|repeat split; vm_compute; reflexivity]|].
  reflexivity.
Qed.
