(** [diff] returns on every pair of well-formed documents: the parts besides
    the conversion of the operations.  Used for C31. *)
From stdpp Require Import list_numbers.
From Verif Require Import Base Arena Matching Chawathe Dom HtmlDiff
  ArenaProofs ArenaOps TreeProofs DtreeProofs MatchProofs ScriptProofs DomTree BuildProofs ApplyProofs
  ShadowProofs ConvProofs RoundProofs AssembleProofs NestProofs TotalProofs ConvTotal InstanceProofs Instances.

(** A well-formed document: the arena is a forest, texts and comments have no
    children, and a document node is never somebody's child. *)
Record proper (d : document) : Prop := {
  pp_wf : wf (doc_arena d);
  pp_leaf : forall i s, node_kind (doc_arena d) i = Some (NText s) \/ node_kind (doc_arena d) i = Some (NComment s) ->
    children (doc_arena d) i = [];
  pp_docs : forall i p, parent (doc_arena d) i = Some p -> node_kind (doc_arena d) i <> Some NDocument
}.

Lemma proper_holds d r : proper d -> is_tree (doc_arena d) r -> rid r < length (doc_arena d) ->
  node_kind (doc_arena d) (rid r) <> Some NDocument -> exists h, holds (doc_arena d) h (rid r).
Proof.
  intros PD. induction r as [i rs IH] using rose_ind'. intros Ht Hl Hk. cbn [rid] in *.
  destruct (data (doc_arena d) i) as [[k n]|] eqn:Ed.
  2:{ destruct (data_some _ _ Hl) as (x & Hx). congruence. }
  assert (node_kind (doc_arena d) i = Some k) as Enk by (unfold node_kind; by rewrite Ed).
  rewrite Enk in Hk. destruct k as [|tag ats|sx|sx]; [done| |exists (HText sx)|exists (HComment sx)].
  - apply is_tree_eq in Ht as [Hc Hts].
    assert (exists hs, Forall2 (holds (doc_arena d)) hs (map rid rs)) as (hs & Hhs).
    { assert (forall u, u ∈ rs -> exists h, holds (doc_arena d) h (rid u)) as Hu.
      { intros u Hu. assert (rid u ∈ children (doc_arena d) i) as Hin by (rewrite Hc; by apply elem_of_list_fmap_1).
        apply (IH u Hu (Hts u Hu)).
        - by eapply wf_child_lt; [apply PD|].
        - eapply (pp_docs _ PD). by apply (wf_pc _ (pp_wf _ PD)). }
      clear -Hu. induction rs as [|u rs IH]; [exists []; constructor|]. destruct (Hu u) as (h & Hh); [left|].
      destruct IH as (hs & Hhs); [intros v Hv; apply Hu; by right|]. exists (h :: hs). by constructor. }
    exists (HElem tag n ats hs). apply holds_elem. split; [done|]. by rewrite Hc.
  - split; [done|]. apply (pp_leaf _ PD i sx). by left.
  - split; [done|]. apply (pp_leaf _ PD i sx). by right.
Qed.

Lemma proper_children d i : proper d -> exists hs, holds_list (doc_arena d) hs (children (doc_arena d) i).
Proof.
  intros PD. assert (forall c, c ∈ children (doc_arena d) i -> exists h, holds (doc_arena d) h c) as Hc.
  { intros c Hin. destruct (tree_exists _ c (pp_wf _ PD)) as (r & <- & Ht). apply proper_holds; [done|done| |].
    - by eapply wf_child_lt; [apply PD|].
    - eapply (pp_docs _ PD). by apply (wf_pc _ (pp_wf _ PD)). }
  revert Hc. generalize (children (doc_arena d) i). induction l as [|c l IH]; intros Hc; [exists []; constructor|].
  destruct (Hc c) as (h & Hh); [left|]. destruct IH as (hs & Hhs); [intros x Hx; apply Hc; by right|].
  exists (h :: hs). by constructor.
Qed.

Lemma body_data d b : body d = Some b -> exists x, data (doc_arena d) b = Some x.
Proof.
  unfold body, body_in. intros Hf. apply find_some in Hf as [_ Hf]. unfold has_tag, node_kind in Hf.
  destruct (data (doc_arena d) b); [by eexists|done].
Qed.

(** Old nodes are matched at most once, also by the forced match of the bodies. *)
Lemma html_matching_pairs {H} (heqb : H -> H -> bool) (ta tb : dtree H hkind attrs string) ra rb m :
  presents ta ra -> presents tb rb -> html_matching heqb ta tb = Val m ->
  (forall x y, (x, y) ∈ m_pairs m -> x ∈ t_iter ta /\ y ∈ t_iter tb) /\
  (forall x y y', (x, y) ∈ m_pairs m -> (x, y') ∈ m_pairs m -> y = y').
Proof.
  intros PA PB. unfold html_matching.
  destruct (compute_matching heqb hkind_eqb props_sim diff_config ta tb) as [m0| | |] eqn:E0; try done.
  cbn [obind]. intros MM. pose proof (compute_matching_bijection _ _ _ _ _ _ _ E0) as B0.
  assert (forall x y, (x, y) ∈ m_pairs m0 -> x ∈ t_iter ta /\ y ∈ t_iter tb) as H1.
  { intros x y Hxy. apply (compute_matching_iter heqb _ _ _ ta tb ra rb PA PB m0 x y E0 Hxy). }
  assert (forall x y y', (x, y) ∈ m_pairs m0 -> (x, y') ∈ m_pairs m0 -> y = y') as H2.
  { intros x y y' G1 G2. apply (bij_fwd _ B0) in G1, G2. congruence. }
  destruct (hkind_eqb _ _); cbn [andb] in MM; [|by injection MM as <-].
  destruct (contains_a m0 (t_root ta)) eqn:Ec; cbn [negb] in MM; injection MM as <-; [done|].
  apply contains_a_false in Ec. cbn [m_add m_pairs]. split.
  - intros x y. rewrite elem_of_app, elem_of_list_singleton. intros [Hin|[= -> ->]]; [by apply H1|].
    split; by eapply pr_root_iter.
  - intros x y y'. rewrite !elem_of_app, !elem_of_list_singleton.
    intros [G1|[= -> ->]] [G2|G2].
    + by eapply H2.
    + injection G2 as -> ->. apply (bij_fwd _ B0) in G1. congruence.
    + apply (bij_fwd _ B0) in G2. congruence.
    + by injection G2.
Qed.

Lemma slot_get_b2s_in pairs y x : slot_get (b2s_of pairs) y = Some x -> (x, y) ∈ pairs.
Proof.
  unfold b2s_of.
  enough (forall sl, slot_get (fold_left (fun s p => slot_set s (snd p) (fst p)) pairs sl) y = Some x ->
    (x, y) ∈ pairs \/ slot_get sl y = Some x) as HH.
  { intros E. by destruct (HH [] E). }
  induction pairs as [|[a b] pairs IH]; intros sl; cbn [fold_left fst snd]; [by right|].
  intros E. apply IH in E as [E|E]; [left; by right|]. rewrite slot_get_set in E.
  destruct (Nat.eqb_spec b y) as [->|]; [injection E as <-; left; left|by right].
Qed.

Lemma opaque_patches_total s l : wf (sh_arena s) -> exists ps, opaque_patches s l = Val ps.
Proof.
  intros W. induction l as [|[x c] l [ps IH]]; [by eexists|]. cbn [opaque_patches].
  destruct (compute_path_total s x W) as (q & ->). cbn [obind]. rewrite IH. by eexists.
Qed.

Lemma insert_content_holds (a : arena dnode) h : forall i f, holds a h i -> hdepth h < f ->
  exists c, insert_content f a i = Some [c].
Proof.
  induction h as [sx|sx|tag ns ats cs IH] using htree_ind'; intros i f Hh Hd;
    (destruct f as [|f]; [lia|]); cbn [insert_content].
  - destruct Hh as [-> _]. by eexists.
  - destruct Hh as [-> _]. by eexists.
  - apply holds_elem in Hh as [Hk Hc]. unfold node_kind. rewrite Hk. cbn [d_kind].
    assert (forall c, c ∈ cs -> hdepth c < f) as Hdc.
    { intros c Hin. pose proof (hdepths_elem cs c Hin). unfold hdepths in *. cbn [hdepth] in Hd. lia. }
    clear Hk Hd. revert Hc. generalize (children a i). induction cs as [|c cs IHc]; intros l Hc.
    + inversion Hc; subst. by eexists.
    + inversion Hc as [|? j ? l' Hj Hl]; subst.
      destruct (IH c ltac:(left) j f Hj (Hdc c ltac:(left))) as (x & ->).
      destruct (IHc ltac:(intros c' Hc'; apply IH; by right) ltac:(intros c' Hc'; apply Hdc; by right) l' Hl) as (y & E).
      match goal with |- context [match ?g l' with _ => _ end] => destruct (g l') as [z|] end; [by eexists|done].
Qed.

Lemma insert_all_total a ts l pos : wf a -> holds_list a ts l -> exists ps, insert_all a l pos = Val ps.
Proof.
  intros W Hl. revert pos. induction Hl as [|h i ts l Hh Hl IH]; intros pos; [by eexists|]. cbn [insert_all].
  assert (exists p, create_insert_patch a i pos = Val p) as (p & ->).
  { unfold create_insert_patch. pose proof (holds_depth _ _ _ W Hh) as Hd.
    destruct h as [tag ns ats cs|sx|sx].
    - destruct (insert_content_holds a _ i (tree_fuel a) Hh Hd) as (c & Ec).
      pose proof Hh as Hh'. apply holds_elem in Hh' as [Hk _]. unfold node_kind. rewrite Hk. cbn [d_kind].
      pose proof Ec as Ec'. unfold tree_fuel in Ec'. cbn [insert_content] in Ec'. unfold node_kind in Ec'. rewrite Hk in Ec'.
      cbn [d_kind] in Ec'. rewrite Ec. cbn [ofuel obind].
      match type of Ec' with match ?x with _ => _ end = _ => destruct x end; [|done].
      injection Ec' as <-. by eexists.
    - destruct Hh as [-> _]. by eexists.
    - destruct Hh as [-> _]. by eexists. }
  cbn [obind]. destruct (IH (S pos)) as (ps & ->). by eexists.
Qed.

Section Total.
  Context {H : Type}.
  Variables (heqb : H -> H -> bool) (hcomb : hkind -> option string -> list H -> H) (h0 : H).

  Lemma opaque_contents_total new ta (tb : dtree H hkind attrs string) pairs :
    (forall x y, (x, y) ∈ pairs -> exists us, holds_list (doc_arena new) us (children (doc_arena new) y)) ->
    wf (doc_arena new) -> exists oc, opaque_contents heqb new ta tb pairs = Val oc.
  Proof.
    intros HY W. induction pairs as [|[x y] l IH]; [by eexists|].
    destruct IH as (oc & E). { intros x' y' Hin. apply (HY x' y'). by right. }
    cbn [opaque_contents]. destruct (negb (t_opaque tb y)); [by exists oc|].
    destruct (heqb (t_hash ta x) (t_hash tb y)); [by exists oc|].
    destruct (HY x y ltac:(left)) as (us & Hus).
    rewrite (serialize_inner_holds _ _ _ W Hus). cbn [ofuel obind]. rewrite E. by eexists.
  Qed.

  (** What [diff] computes for two documents with bodies: [l1] are the operations
      of the edit script before the deletions [l2]. *)
  Record parts old new (t : arena tdata) (ta tb : dtree H hkind attrs string) rb m sh oc l1 l2 : Prop := {
    dp_len : 0 < length t;
    dp_tb : presents tb rb;
    dp_iter : forall x y, (x, y) ∈ m_pairs m -> x < length t;
    dp_fun : forall x y y', (x, y) ∈ m_pairs m -> (x, y') ∈ m_pairs m -> y = y';
    dp_new : shadow_new t 0 = Val sh;
    dp_wf : shwf sh;
    dp_sh : cinv (length t) (m_pairs m) (mkCS sh (b2s_of (m_pairs m)) []);
    dp_next : sh_next sh = 1;
    dp_script : html_edit_script ta tb m = l1 ++ l2;
    dp_sound : forall op, op ∈ l1 -> sound_op tb (m_pairs m) op /\
      match op with UpdateProperties a _ _ | SetText a _ _ => a < length t | _ => True end;
    dp_del : forall op, op ∈ l2 -> exists a, op = Delete a /\ a < length t;
    dp_match : html_matching heqb ta tb = Val m;
    dp_oc : opaque_contents heqb new ta tb (m_pairs m) = Val oc;
    dp_diff : diff heqb hcomb h0 old new =
      let! s := convert_loop tb (insert_nodes (l1 ++ l2)) (mkCS sh (b2s_of (m_pairs m)) []) (l1 ++ l2) in
      match oc with
      | [] => Val (cs_out s)
      | _ => let! qs := opaque_patches sh oc in Val (cs_out s ++ qs)
      end;
    dp_trees : exists ob nb, body old = Some ob /\ body new = Some nb /\ build_tree (doc_arena old) ob = Val t /\
      mk_dtree hcomb h0 (fun d => d) t 0 = Val ta /\ mk_dtree hcomb h0 tdata_of (doc_arena new) nb = Val tb
  }.

  Lemma diff_parts old new ob nb :
    proper old -> proper new -> body old = Some ob -> body new = Some nb ->
    exists t ta tb rb m sh oc l1 l2, parts old new t ta tb rb m sh oc l1 l2.
  Proof.
    intros PO PN EO EN.
    destruct (body_data _ _ EO) as (od & Hod). destruct (body_data _ _ EN) as (nd & Hnd).
    destruct (proper_children old ob PO) as (ts & Hts).
    destruct (build_tree_ok (doc_arena old) ob _ ts (pp_wf _ PO) Hod Hts) as (t & Et & BT).
    destruct (built_tree t _ ts BT) as (ra & Hra & Hta & Hia).
    assert (0 < length t) as L0 by (eapply data_lt; apply BT).
    destruct (mk_dtree_presents hcomb h0 (fun d => d) t ra (bt_wf _ _ _ BT)) as (ta & Ea & PA); [by rewrite Hra|done|].
    destruct (tree_exists (doc_arena new) nb (pp_wf _ PN)) as (rb & Hrb & Htb).
    destruct (mk_dtree_presents hcomb h0 tdata_of (doc_arena new) rb (pp_wf _ PN)) as (tb & Eb & PB).
    { rewrite Hrb. by eapply data_lt. } { done. }
    rewrite Hra in Ea. rewrite Hrb in Eb.
    destruct (compute_matching_total heqb hkind_eqb props_sim diff_config ta tb ra PA) as (m0 & Em0).
    destruct (html_matching heqb ta tb) as [m| | |] eqn:Em;
      [|unfold html_matching in Em; rewrite Em0 in Em; done..].
    destruct (mk_dtree_fields _ _ _ _ _ _ Ea) as (Ra & Ka & _ & _ & FPa & FCa & _).
    destruct (mk_dtree_fields _ _ _ _ _ _ Eb) as (Rb & Kb & _ & _ & FPb & FCb & _).
    destruct (html_matching_pairs heqb ta tb ra rb m PA PB Em) as (MQ & MF).
    assert (forall x y, (x, y) ∈ m_pairs m -> x < length t) as ML.
    { intros x y Hin. destruct (MQ x y Hin) as [Hx _]. rewrite (pr_iter _ _ PA) in Hx. by apply Hia. }
    destruct (opaque_contents_total new ta tb (m_pairs m)) as (oc & Eoc).
    { intros x y Hin. by apply proper_children. }
    { apply PN. }
    destruct (shadow_new_full t (bt_wf _ _ _ BT) L0 (bt_root_parent _ _ _ BT)) as (sh & Esh & FS).
    pose proof (script_eq String.eqb props_empty props_diff any_different (@length prop_change) (@length attr) ta tb m) as ES.
    rewrite !app_assoc in ES.
    match type of ES with _ = ?l ++ ?k => set (l1 := l) in ES; set (l2 := k) in ES end.
    exists t, ta, tb, rb, m, sh, oc, l1, l2. split; try done.
    - apply FS.
    - assert (forall x, x < length t -> inner (length t) sh x) as HIN.
      { intros x Hx. split; [rewrite (fs_len _ _ FS); lia|]. split; [lia|]. rewrite (fs_top _ _ FS).
        rewrite elem_of_list_singleton. lia. }
      split; cbn [cs_shadow cs_b2s].
      + split.
        * apply FS.
        * apply FS.
        * intros k. rewrite (fs_top _ _ FS). rewrite elem_of_list_singleton. lia.
        * exists (S (length t)). rewrite (fs_top _ _ FS). split; [done|]. apply FS.
        * intros x Hx Hp. left. destruct (decide (x = length t)) as [|Hne]; [done|]. exfalso.
          rewrite (fs_len _ _ FS) in Hx. destruct (decide (x = S (length t))) as [->|].
          { rewrite (fs_slot_parent _ _ FS) in Hp. done. }
          destruct (decide (x = 0)) as [->|H0]; [by rewrite (fs_root_parent _ _ FS) in Hp|].
          rewrite (fs_parent _ _ FS) in Hp by lia.
          destruct (bt_all _ _ _ BT x ltac:(lia)) as (l & Hl & Hin).
          inversion Hl; subst; [|congruence]. destruct Hin as [?|Hin]; [lia|by apply elem_of_nil in Hin].
      + intros b n Hg. apply slot_get_b2s_in in Hg. split; [|done]. apply HIN. by eapply ML.
    - rewrite (sw_next _ (fs_wf _ _ FS)), (fs_super _ _ FS), (fs_top _ _ FS). done.
    - intros op Hop. unfold l1 in Hop. apply elem_of_app in Hop as [Hop|Hop];
        [apply elem_of_app in Hop as [Hop|Hop]|]; apply elem_flat_map in Hop as (z & Hz & Hop).
      + apply in_ph1 in Hop as (a & b & -> & _ & _ & [[? ->]|[? ->]]); (split; [done|]); by eapply ML.
      + apply in_ph2 in Hop as (Hg & _ & p & _ & ->). done.
      + apply in_ph4 in Hop as (a & b & pa & pb & -> & _ & _ & Hpa & Hpb & -> & _). split; [|done]. split; [done|].
        split.
        * intros ->. rewrite FPa, (bt_root_parent _ _ _ BT) in Hpa. done.
        * intros ->. rewrite FPb in Hpb. eapply (above_not_parent _ _ _ (pp_wf _ PN) Hpb).
          apply above_refl. apply PN.
    - intros op Hop. unfold l2 in Hop. apply elem_flat_map in Hop as (z & Hz & Hop).
      apply in_ph5 in Hop as (_ & _ & ->). exists z. split; [done|].
      apply (pr_post_iter _ _ PA) in Hz. rewrite (pr_iter _ _ PA) in Hz. by apply Hia.
    - unfold diff. rewrite EO, EN. unfold diff_bodies. rewrite Et. cbn [obind]. rewrite Ea. cbn [obind].
      rewrite Eb. cbn [obind]. rewrite Em. cbn [obind]. rewrite Eoc. cbn [obind]. cbv zeta.
      unfold convert_ops. rewrite Esh. cbn [obind]. unfold html_edit_script. rewrite ES.
      destruct (convert_loop _ _ _ _) as [s'| | |]; cbn [obind]; done.
    - by exists ob, nb.
  Qed.

  Lemma convert_loop_app (tb : dtree H hkind attrs string) ins : forall l k s,
    convert_loop tb ins s (l ++ k) = let! s' := convert_loop tb ins s l in convert_loop tb ins s' k.
  Proof.
    induction l as [|op l IH]; intros k s; [done|]. cbn [app convert_loop].
    destruct (convert_op tb ins s op) as [s'| | |]; cbn [obind]; [apply IH|done..].
  Qed.

  Theorem diff_bodies_total old new ob nb :
    proper old -> proper new -> body old = Some ob -> body new = Some nb ->
    exists ps, diff heqb hcomb h0 old new = Val ps.
  Proof.
    intros PO PN EO EN.
    destruct (diff_parts old new ob nb PO PN EO EN) as (t & ta & tb & rb & m & sh & oc & l1 & l2 & DP).
    rewrite (dp_diff _ _ _ _ _ _ _ _ _ _ _ DP).
    rewrite convert_loop_app.
    destruct (convert_ops_total (length t) tb rb (m_pairs m) (insert_nodes (l1 ++ l2)) (dp_tb _ _ _ _ _ _ _ _ _ _ _ DP)
      (dp_len _ _ _ _ _ _ _ _ _ _ _ DP) (dp_iter _ _ _ _ _ _ _ _ _ _ _ DP) (dp_fun _ _ _ _ _ _ _ _ _ _ _ DP) l1 _
      (dp_sh _ _ _ _ _ _ _ _ _ _ _ DP)) as (s1 & E1 & C1).
    { intros op Hop. by apply (dp_sound _ _ _ _ _ _ _ _ _ _ _ DP). }
    rewrite E1. cbn [obind].
    destruct (deletes_total (length t) tb (insert_nodes (l1 ++ l2)) (dp_len _ _ _ _ _ _ _ _ _ _ _ DP) l2 s1) as (s2 & E2).
    { apply (ci_sh _ _ _ C1). } { apply (ci_sh _ _ _ C1). } { apply (ci_sh _ _ _ C1). }
    { apply (dp_del _ _ _ _ _ _ _ _ _ _ _ DP). }
    rewrite E2. cbn [obind]. destruct oc as [|o oc]; [by eexists|].
    destruct (opaque_patches_total sh (o :: oc)) as (qs & Eq). { apply (dp_wf _ _ _ _ _ _ _ _ _ _ _ DP). }
    rewrite Eq. by eexists.
  Qed.

  Theorem diff_total_all old new : proper old -> proper new -> exists ps, diff heqb hcomb h0 old new = Val ps.
  Proof.
    intros PO PN. destruct (body old) as [ob|] eqn:EO, (body new) as [nb|] eqn:EN.
    - by eapply diff_bodies_total.
    - unfold diff. rewrite EO, EN. by eexists.
    - unfold diff. rewrite EO, EN. destruct (proper_children new nb PN) as (us & Hus).
      eapply insert_all_total; [apply PN|exact Hus].
    - unfold diff. rewrite EO, EN. by eexists.
  Qed.
End Total.
