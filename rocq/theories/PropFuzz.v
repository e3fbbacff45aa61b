(** C78: what the project's fuzz targets look at.  A recorded run is the run of the
    patches; the tree that is compared; the parity target never runs a patch. *)
From Coq Require Import Sorting.Sorted.
From Verif Require Import Base Arena Matching Chawathe Dom HtmlDiff Browser Sink Fuzz
  AttrProofs MatchProofs ArenaProofs ArenaOps TreeProofs ScriptProofs DomTree ApplyProofs
  FrameProofs Instances PropAlike PropApply PropFrame PropParse.
Local Open Scope string_scope.

(** ** Runs *)

Section Recorder.
  Variable apply1 : pstate -> patch -> presult.
  Variable look : pstate -> option domnode.
  Variable show : diff_error -> string.

  (** One patch after the other. *)
  Inductive ran : pstate -> list patch -> pstate -> Prop :=
  | ran_nil st : ran st [] st
  | ran_cons st p st1 ps st' : apply1 st p = (st1, Val tt) -> ran st1 ps st' -> ran st (p :: ps) st'.

  Lemma record_skipped_all st ps l : record_skipped look st ps = Val l ->
    length l = length ps /\ forall i s, l !! i = Some s -> exists x, s = StepFailed skipped x /\ look st = Some x.
  Proof using Type.
    revert l. induction ps as [|p ps IH]; cbn; intros l E.
    - injection E as <-. done.
    - destruct (look st) as [x|]; [|done]. destruct (record_skipped look st ps) as [l'| | |]; try done.
      injection E as <-. destruct (IH l' eq_refl) as [H1 H2]. split; [cbn; lia|].
      intros [|i] s; cbn; [intros [= <-]; eauto|apply H2].
  Qed.

  (** Every step, from the patches before it. *)
  Definition step_right (st : pstate) (ps : list patch) (i : nat) (s : step) : Prop :=
    match s with
    | StepOk x => exists st', ran st (firstn (S i) ps) st' /\ look st' = Some x
    | StepFailed t x => exists k st1 p st2 e, k <= i /\ ran st (firstn k ps) st1 /\ ps !! k = Some p /\
        apply1 st1 p = (st2, Fail e) /\ look st2 = Some x /\ t = (if Nat.eqb k i then show e else skipped)
    end.

  Lemma record_right ps : forall st l, record apply1 look show st ps = Val l ->
    length l = length ps /\ forall i s, l !! i = Some s -> step_right st ps i s.
  Proof using Type.
    induction ps as [|p ps IH]; intros st l E; cbn [record] in E.
    - injection E as <-. done.
    - destruct (apply1 st p) as [st1 [[]|e| |]] eqn:Ep; try done.
      + destruct (look st1) as [x|] eqn:El; [|done].
        destruct (record apply1 look show st1 ps) as [l'| | |] eqn:Er; try done. injection E as <-.
        destruct (IH st1 l' Er) as [H1 H2]. split; [cbn; lia|]. intros [|i] s; cbn [lookup list_lookup].
        * intros [= <-]. exists st1. split; [|done]. cbn. econstructor; [done|]. constructor.
        * intros Hs. specialize (H2 i s Hs). destruct s as [y|t y]; cbn [step_right firstn].
          -- destruct H2 as (st' & H & Hl). exists st'. split; [|done]. by econstructor.
          -- destruct H2 as (k & sa & q & sb & e & Hk & H & Hq & Ha & Hl & Ht).
             exists (S k), sa, q, sb, e. split; [lia|]. split; [cbn; by econstructor|]. done.
      + destruct (look st1) as [x|] eqn:El; [|done].
        destruct (record_skipped look st1 ps) as [l'| | |] eqn:Er; try done. injection E as <-.
        destruct (record_skipped_all st1 ps l' Er) as [H1 H2]. split; [cbn; lia|].
        intros [|i] s; cbn [lookup list_lookup].
        * intros [= <-]. exists 0, st, p, st1, e. split; [lia|]. split; [constructor|]. done.
        * intros Hs. destruct (H2 i s Hs) as (y & -> & Hy). assert (y = x) as -> by congruence.
          exists 0, st, p, st1, e. split; [lia|]. split; [constructor|]. done.
  Qed.
End Recorder.

Lemma ran_native parse st ps st' : ran (apply_patch parse) st ps st' <-> apply_all parse st ps = (st', Val tt).
Proof.
  revert st. induction ps as [|p ps IH]; intros st; cbn [apply_all].
  - split; [by inversion 1|]. intros [= <-]. constructor.
  - split.
    + inversion 1 as [|? ? st1 ? ? E1 R1]; subst. rewrite E1. by apply IH.
    + destruct (apply_patch parse st p) as [st1 [[]| | |]] eqn:E; try done. intros HH.
      econstructor; [done|]. by apply IH.
Qed.

(** The document after a list of patches, when all of them apply. *)
Definition patched_to (parse : string -> list htree) (d : document) (ps : list patch) (d' : document) : Prop :=
  apply_patches parse d ps = (d', Val tt).

Lemma patched_run parse d d1 sl ps st' : init_patch_slots d = Val (d1, sl) -> ps <> [] ->
  ran (apply_patch parse) (doc_arena d1, sl) ps st' ->
  patched_to parse d ps (mkDoc (fst st') (doc_root d1) (doc_doctype d1)).
Proof.
  intros E Hne H. apply ran_native in H. unfold patched_to, apply_patches. rewrite E.
  destruct ps; [done|]. rewrite H. by destruct st'.
Qed.

Lemma firstn_snoc {A} (l : list A) k x : l !! k = Some x -> firstn (S k) l = (firstn k l ++ [x])%list.
Proof. apply take_S_r. Qed.

Lemma firstn_more {A} (l : list A) k i : k <= i -> firstn i l = (firstn k l ++ firstn (i - k) (skipn k l))%list.
Proof.
  revert l i. induction k as [|k IH]; intros l i Hi; cbn; [by rewrite Nat.sub_0_r|].
  destruct l as [|x l]; [by rewrite !firstn_nil|]. destruct i as [|i]; [lia|]. cbn. f_equal. apply IH. lia.
Qed.

Lemma failed_run parse st ps k st1 p st2 e : apply_all parse st (firstn k ps) = (st1, Val tt) -> ps !! k = Some p ->
  apply_patch parse st1 p = (st2, Fail e) ->
  forall i, k <= i -> apply_all parse st (firstn (S i) ps) = (st2, Fail e).
Proof.
  intros H Hp E i Hi. rewrite (firstn_more ps (S k) (S i)) by lia. rewrite (firstn_snoc ps k p Hp).
  rewrite !apply_all_app, H. cbn [apply_all]. by rewrite E.
Qed.

(** A step says what [apply_patches] does with the patches up to it: the tree of the
    document when they apply, and otherwise the error of the first one that does
    not. *)
Theorem trace_is_application : forall show parse (d : document) ps t,
  capture show parse d ps = Val t ->
  document_tree d = Some (tr_initial t) /\
  length (tr_steps t) = length ps /\
  (forall i x, tr_steps t !! i = Some (StepOk x) <->
     i < length ps /\ exists d', patched_to parse d (firstn (S i) ps) d' /\ document_tree d' = Some x) /\
  (forall i m x, tr_steps t !! i = Some (StepFailed m x) ->
     exists k e d', k <= i /\ apply_patches parse d (firstn (S k) ps) = (d', Fail e) /\
       (forall j, j < k -> exists dj, patched_to parse d (firstn (S j) ps) dj) /\
       document_tree d' = Some x /\ m = (if Nat.eqb k i then show e else skipped)) /\
  (all_succeeded t = true <-> exists d', patched_to parse d ps d') /\
  (ps <> [] -> all_succeeded t = true ->
     document_tree (fst (apply_patches parse d ps)) = Some (final_tree t)).
Proof.
  intros show parse d ps t E. unfold capture in E. destruct (document_tree d) as [x0|] eqn:E0; [|done].
  destruct (init_patch_slots d) as [[d1 sl]| | |] eqn:EI; try done. cbn [obind] in E.
  set (look := fun st : pstate => document_tree (mkDoc (fst st) (doc_root d1) (doc_doctype d1))) in E.
  destruct (record (apply_patch parse) look show (doc_arena d1, sl) ps) as [l| | |] eqn:ER; try done.
  injection E as <-. cbn [tr_initial tr_steps]. destruct (record_right _ _ _ _ _ _ ER) as [HL HS].
  assert (forall k st p st2 e, ran (apply_patch parse) (doc_arena d1, sl) (firstn k ps) st -> ps !! k = Some p ->
    apply_patch parse st p = (st2, Fail e) -> forall i, k <= i ->
    apply_patches parse d (firstn (S i) ps) = (mkDoc (fst st2) (doc_root d1) (doc_doctype d1), Fail e)) as HF.
  { intros k st p st2 e R Hp Ha i Hi. apply ran_native in R.
    pose proof (failed_run _ _ _ _ _ _ _ _ R Hp Ha i Hi) as G. unfold apply_patches. rewrite EI.
    destruct ps as [|p0 ps0]; [by destruct k|]. cbn [firstn] in *. rewrite G. by destruct st2. }
  assert (forall i s, l !! i = Some s -> i < length ps) as HI by (intros i s Hs; rewrite <- HL; by eapply lookup_lt_Some).
  assert (forall i x, l !! i = Some (StepOk x) ->
     i < length ps /\ exists d', patched_to parse d (firstn (S i) ps) d' /\ document_tree d' = Some x) as HO.
  { intros i x Hs. pose proof (HI _ _ Hs) as Hi. split; [done|]. destruct (HS _ _ Hs) as (st' & R & Hl).
    eexists. split; [|exact Hl]. apply (patched_run _ _ _ _ _ _ EI); [|done]. by destruct ps; cbn in *; [lia|]. }
  assert (forall i s d', l !! i = Some s -> patched_to parse d (firstn (S i) ps) d' ->
    exists x, s = StepOk x /\ document_tree d' = Some x) as HB.
  { intros i [x|m x] d' Hs Hd.
    - destruct (HO i x Hs) as [_ (d2 & Hd2 & Hx)]. exists x. split; [done|]. unfold patched_to in *. congruence.
    - destruct (HS _ _ Hs) as (k & st1 & p & st2 & e & Hk & R & Hp & Ha & _).
      pose proof (HF k st1 p st2 e R Hp Ha i Hk) as G. unfold patched_to in Hd. congruence. }
  split; [done|]. split; [done|]. split; [|split; [|split]].
  - intros i x. split; [apply HO|]. intros [Hi (d' & Hd & Hx)]. rewrite <- HL in Hi.
    destruct (lookup_lt_is_Some_2 l i Hi) as [s Hs]. destruct (HB i s d' Hs Hd) as (y & -> & Hy). congruence.
  - intros i m x Hs. destruct (HS _ _ Hs) as (k & st1 & p & st2 & e & Hk & R & Hp & Ha & Hl & Hm).
    exists k, e, (mkDoc (fst st2) (doc_root d1) (doc_doctype d1)). split; [done|].
    split; [by eapply (HF k)|]. split; [|done]. intros j Hj.
    pose proof R as R'. apply ran_native in R'. rewrite (firstn_more ps (S j) k) in R' by lia.
    rewrite apply_all_app in R'.
    destruct (apply_all parse (doc_arena d1, sl) (firstn (S j) ps)) as [sj oj] eqn:Ej.
    assert (oj = Val tt) as -> by (destruct oj as [[]| | |]; congruence).
    eexists. apply (patched_run _ _ _ _ _ sj EI); [|by apply ran_native]. by destruct ps.
  - unfold all_succeeded. cbn [tr_steps]. rewrite forallb_forall. split.
    + intros HA. destruct ps as [|p0 ps0]; [by eexists|].
      destruct (lookup_lt_is_Some_2 l (length ps0)) as [s Hs]; [rewrite HL; cbn; lia|].
      pose proof (HA s (proj1 (elem_of_list_In _ _) (elem_of_list_lookup_2 _ _ _ Hs))) as Hok.
      destruct s as [x|]; [|done]. destruct (HO _ _ Hs) as [_ (d' & Hd & _)]. exists d'.
      by rewrite firstn_all2 in Hd by (cbn; lia).
    + intros [d' Hd] s Hin. apply elem_of_list_In, elem_of_list_lookup in Hin as [i Hs]. destruct s as [x|m x]; [done|].
      destruct (HS _ _ Hs) as (k & st1 & p & st2 & e & Hk & R & Hp & Ha & _).
      pose proof (HF k st1 p st2 e R Hp Ha (length ps)) as G.
      rewrite firstn_all2 in G by lia. pose proof (HI _ _ Hs). unfold patched_to in Hd.
      rewrite G in Hd by lia. done.
  - intros Hne HA. unfold all_succeeded in HA. cbn [tr_steps] in HA. rewrite forallb_forall in HA.
    destruct (lookup_lt_is_Some_2 l (length ps - 1)) as [s Hs]; [rewrite HL; destruct ps; cbn in *; [done|lia]|].
    assert (l = firstn (length ps - 1) l ++ [s])%list as El.
    { rewrite <- (firstn_snoc _ _ _ Hs). symmetry. apply firstn_all2. rewrite HL. destruct ps; cbn; [done|lia]. }
    pose proof (HA s (proj1 (elem_of_list_In _ _) (elem_of_list_lookup_2 _ _ _ Hs))) as Hok.
    destruct s as [x|]; [|done]. destruct (HO _ _ Hs) as [_ (d' & Hd & Hx)].
    rewrite firstn_all2 in Hd by (destruct ps; cbn; [done|lia]). unfold patched_to in Hd. rewrite Hd. cbn [fst].
    rewrite Hx. unfold final_tree. cbn [tr_steps]. rewrite El, rev_app_distr. done.
Qed.
Print Assumptions trace_is_application.

(** ** The trees that are compared *)

(** ** Attributes *)

Lemma insert_attr_perm x l : insert_attr x l ≡ₚ x :: l.
Proof.
  induction l as [|y l IH]; [done|]. cbn [insert_attr]. destruct (String.leb (fst x) (fst y)); [done|].
  rewrite IH. apply perm_swap.
Qed.
Lemma sort_attrs_perm l : sort_attrs l ≡ₚ l.
Proof. induction l as [|x l IH]; [done|]. cbn [sort_attrs]. by rewrite insert_attr_perm, IH. Qed.
Lemma insert_attr_sorted x l : Sorted (fun y z => String.leb (fst y) (fst z) = true) l ->
  Sorted (fun y z => String.leb (fst y) (fst z) = true) (insert_attr x l).
Proof.
  induction l as [|y l IH]; intros HS; cbn [insert_attr]; [by repeat constructor|].
  destruct (String.leb (fst x) (fst y)) eqn:E; [constructor; [done|by constructor]|].
  assert (String.leb (fst y) (fst x) = true) as E' by (destruct (String.leb_total (fst x) (fst y)); congruence).
  inversion_clear HS as [|? ? HS' Hd]. constructor; [by apply IH|].
  destruct l as [|z l]; cbn [insert_attr]; [by constructor|]. destruct (String.leb (fst x) (fst z)); constructor; [done|].
  by inversion Hd.
Qed.

(** What the native tree shows of the attributes: their qualified names and
    values, of an [html] element only those with five names; in the order of the
    names. *)
Theorem attributes_shown : forall tag (l : attrs),
  (forall n v, (n, v) ∈ native_attrs tag l <->
     exists q, (q, v) ∈ l /\ bname q = n /\ (tag = "html" -> q_local q ∈ ["lang"; "dir"; "class"; "id"; "style"])) /\
  (tag <> "html" -> length (native_attrs tag l) = length l) /\
  Sorted (fun x y => String.leb (fst x) (fst y) = true) (native_attrs tag l).
Proof.
  intros tag l. split_and!.
  - intros n v. unfold native_attrs. rewrite sort_attrs_perm, elem_of_list_fmap. split.
    + intros ([q w] & [= -> ->] & Hin). exists q. cbn [fst snd]. destruct (String.eqb_spec tag "html") as [->|Hn].
      * apply elem_of_list_In, filter_In in Hin as [Hin He]. apply elem_of_list_In in Hin. split; [done|]. split; [done|].
        intros _. apply existsb_exists in He as (y & Hy & Hq). apply elem_of_list_In in Hy. apply String.eqb_eq in Hq.
        cbn [fst] in Hq. by rewrite Hq.
      * by split_and!.
    + intros (q & Hin & <- & Hh). exists (q, v). split; [done|]. destruct (String.eqb_spec tag "html") as [->|]; [|done].
      apply elem_of_list_In, filter_In. split; [by apply elem_of_list_In|]. apply existsb_exists.
      exists (q_local q). split; [|by apply String.eqb_eq]. apply elem_of_list_In. by apply Hh.
  - intros Hn. unfold native_attrs. rewrite sort_attrs_perm. destruct (String.eqb_spec tag "html"); [done|].
    by rewrite map_length.
  - unfold native_attrs. generalize (map (fun kv : qname * string => (bname (fst kv), snd kv))
      (if String.eqb tag "html" then List.filter (fun kv => existsb (String.eqb (q_local (fst kv))) html_allowed) l else l)).
    intros l'. induction l' as [|x l' IH]; [constructor|]. by apply insert_attr_sorted.
Qed.
Print Assumptions attributes_shown.

Example attributes_example :
  let l := [(mkQ None "" "style", "1"); (mkQ None "" "charset", "2"); (mkQ None "" "lang", "3")] in
  native_attrs "html" l = [("lang", "3"); ("style", "1")] /\
  native_attrs "body" l = [("charset", "2"); ("lang", "3"); ("style", "1")].
Proof. by vm_compute. Qed.

(** Without namespaces, tags in lower case, attributes by name. *)
Fixpoint dom_of (h : htree) : domnode :=
  match h with
  | HText s => DText s
  | HComment s => DComment s
  | HElem tag _ ats cs => DElem (lower tag) (native_attrs (lower tag) ats) (map dom_of cs)
  end.

Lemma all_some_forall2 {A B} (f : A -> option B) l ys : Forall2 (fun x y => f x = Some y) l ys -> all_some f l = Some ys.
Proof. induction 1 as [|x y l ys Hx _ IH]; cbn; [done|]. by rewrite Hx, IH. Qed.

Lemma dom_node_holds a h i f : holds a h i -> hdepth h < f -> dom_node_f native_attrs f a i = Some (dom_of h).
Proof.
  revert i f. induction h as [s|s|tag ns ats cs IH] using htree_ind'; intros i [|f] Ht Hf; try lia.
  - destruct Ht as [Hk _]. cbn [dom_node_f dom_of]. by rewrite Hk.
  - destruct Ht as [Hk _]. cbn [dom_node_f dom_of]. by rewrite Hk.
  - apply holds_elem in Ht as [Hd Hcs]. cbn [dom_node_f dom_of]. unfold node_kind. rewrite Hd. cbn [d_kind].
    rewrite (all_some_forall2 _ _ (map dom_of cs)); [done|].
    assert (forall c, c ∈ cs -> hdepth c < f) as Hh by (intros c Hc; pose proof (hdepth_child tag ns ats cs c Hc); lia).
    clear Hd Hf. induction Hcs as [|c j ts l Hc HF IHl]; cbn; constructor.
    + apply IH; [by left|done|]. apply Hh. by left.
    + apply IHl; intros c' Hc'; [apply IH|apply Hh]; by right.
Qed.

Theorem tree_compared : forall (a : arena dnode) h i, wf a -> holds a h i -> native_node a i = Some (dom_of h).
Proof. intros a h i W H. apply dom_node_holds; [done|]. by eapply holds_depth. Qed.
Print Assumptions tree_compared.

Lemma list_same_spec {A} (f : A -> A -> bool) l : forall l', (forall x y, x ∈ l -> f x y = true <-> x = y) ->
  list_same f l l' = true <-> l = l'.
Proof.
  induction l as [|x l IH]; intros [|y l'] H; cbn; try done.
  rewrite andb_true_iff, IH by (intros; apply H; by right). rewrite H by left. naive_solver.
Qed.

Section DomInd.
  Variable P : domnode -> Prop.
  Hypothesis H1 : forall t l cs, (forall c, c ∈ cs -> P c) -> P (DElem t l cs).
  Hypothesis H2 : forall s, P (DText s).
  Hypothesis H3 : forall s, P (DComment s).
  Fixpoint domnode_ind' (d : domnode) : P d :=
    match d with
    | DElem t l cs =>
        H1 t l cs (proj1 (Forall_forall P cs)
          ((fix go (cs : list domnode) : Forall P cs :=
              match cs with
              | [] => Forall_nil_2 P
              | c :: cs' => Forall_cons_2 P c cs' (domnode_ind' c) (go cs')
              end) cs))
    | DText s => H2 s
    | DComment s => H3 s
    end.
End DomInd.

(** The comparison of the targets is equality of these trees. *)
Theorem trees_equal : forall x y : domnode, domnode_eqb x y = true <-> x = y.
Proof.
  induction x as [t l cs IH|s|s] using domnode_ind'; intros [t' l' cs'|s'|s']; try done; cbn [domnode_eqb].
  - rewrite !andb_true_iff, String.eqb_eq, !list_same_spec; [naive_solver| |].
    + intros x y Hx. by apply IH.
    + intros [a b] [a' b'] _. cbn. rewrite andb_true_iff, !String.eqb_eq. naive_solver.
  - rewrite String.eqb_eq. naive_solver.
  - rewrite String.eqb_eq. naive_solver.
Qed.
Print Assumptions trees_equal.

(** Pages that differ and have the same tree: namespaces, the case of a tag and the
    order of attributes are not seen. *)
Theorem trees_equal_refuted : exists d d' : document,
  document_tree d = document_tree d' /\ to_body_html d <> to_body_html d' /\
  data (doc_arena d) 4 <> data (doc_arena d') 4.
Proof.
  exists (mk_doc [] [HElem "svg" NsSvg [] [HElem "linearGradient" NsSvg [(mkQ None "" "b", "2"); (mkQ None "" "a", "1")] []]]),
         (mk_doc [] [HElem "svg" NsHtml [] [HElem "lineargradient" NsHtml [(mkQ None "" "a", "1"); (mkQ None "" "b", "2")] []]]).
  vm_compute. split; [done|]. split; intros [=].
Qed.
Print Assumptions trees_equal_refuted.

(** ** A run is recorded whenever the patches can be applied without a move *)

Lemma rose_dom ats (a : arena dnode) r : is_tree a r -> forall f, rheight r < f -> exists s, dom_node_f ats f a (rid r) = Some s.
Proof.
  induction r as [i ts IH] using rose_ind'. intros Ht f Hf. destruct f as [|f]; [lia|]. cbn [rid dom_node_f].
  destruct (node_kind a i) as [[| t l| |]|]; eauto. apply is_tree_eq in Ht as [-> Ht].
  assert (forall u, u ∈ ts -> rheight u < f) as Hh.
  { intros u Hu. pose proof (rheight_child (Rose i ts) u Hu). lia. } clear Hf.
  assert (exists v, all_some (dom_node_f ats f a) (map rid ts) = Some v) as [v ->]; [|eauto].
  induction ts as [|u ts IHts]; cbn [map all_some]; [eauto|].
  destruct (IH u (elem_of_list_here _ _) (Ht u (elem_of_list_here _ _)) f (Hh u (elem_of_list_here _ _))) as [v ->].
  destruct IHts as [w ->]; [| |intros; apply Hh; by right|eauto].
  - intros t' Ht'. apply IH. by right.
  - intros t' Ht'. apply Ht. by right.
Qed.

Lemma wf_dom a i : wf a -> i < length a -> exists x, native_node a i = Some x.
Proof.
  intros W Hi. destruct (tree_exists a i W) as (r & <- & Ht). apply rose_dom; [done|].
  pose proof (rheight_lt_size r). pose proof (is_tree_size a r W Ht Hi). unfold tree_fuel. lia.
Qed.

Lemma wf_document_tree d : wf (doc_arena d) -> doc_root d < length (doc_arena d) -> exists x, document_tree d = Some x.
Proof.
  intros W Hr. apply wf_dom; [done|]. unfold body_or_root. destruct (body d) as [b|] eqn:E; [|done].
  unfold body, body_in in E. apply find_some in E as [Hin _]. apply elem_of_list_In in Hin. by eapply wf_child_lt.
Qed.

Lemma record_exists show parse r dt ps : forall st, st_ok st -> r < length (fst st) ->
  (forall p, p ∈ ps -> ~ is_move_patch p) ->
  exists l, record (apply_patch parse) (fun st : pstate => document_tree (mkDoc (fst st) r dt)) show st ps = Val l.
Proof.
  induction ps as [|p ps IH]; intros st HS Hr NM; cbn [record]; [eauto|].
  assert (is_move p = false) as Hm.
  { destruct (is_move p) eqn:E; [|done]. destruct (NM p (elem_of_list_here _ _)). destruct p; try done. by eexists _, _, _. }
  pose proof (apply_patch_good parse st p Hm HS) as G. destruct (apply_patch parse st p) as [st1 o].
  destruct G as (G1 & G2 & G3). cbn [fst snd] in *.
  destruct (wf_document_tree (mkDoc (fst st1) r dt)) as [x Ex]; [apply G1|cbn; lia|].
  destruct o as [[]|e| |]; try done; rewrite Ex.
  - destruct (IH st1 G1) as [l ->]; [lia|intros; apply NM; by right|]. eexists; reflexivity.
  - assert (exists l, record_skipped (fun st : pstate => document_tree (mkDoc (fst st) r dt)) st1 ps = Val l) as [l ->];
      [|eexists; reflexivity].
    clear - Ex. induction ps as [|p ps [l IH]]; cbn [record_skipped]; [eauto|]. rewrite Ex, IH. eexists; reflexivity.
Qed.

Theorem trace_exists : forall show parse (d : document) ps,
  wf (doc_arena d) -> doc_root d < length (doc_arena d) -> (forall p, p ∈ ps -> ~ is_move_patch p) ->
  exists t, capture show parse d ps = Val t.
Proof.
  intros show parse d ps W Hr NM. unfold capture. destruct (wf_document_tree d W Hr) as [x ->].
  unfold init_patch_slots. destruct (ensure_body_ok d W Hr) as (d1 & b & -> & W1 & Hb & Hl & Er & _). cbn [obind]. cbv zeta beta iota.
  destruct (record_exists show parse (doc_root d1) (doc_doctype d1) ps (doc_arena d1, [(0, b)])) as [l El];
    [| |done|exists (mkTrace x l); exact (f_equal (fun o => obind o (fun steps => Val (mkTrace x steps))) El)].
  - split; [done|]. intros k v. cbn. destruct k; [by intros [= <-]|done].
  - cbn [fst]. rewrite Er. lia.
Qed.
Print Assumptions trace_exists.

(** ** The parity target *)

(** Documents parsed as a fragment have no body, and then the diff is empty: the
    verdict does not depend on the new document, no patch is run and no difference
    between the two appliers can be found. *)
Theorem parity_target_blind : forall {H} (heqb : H -> H -> bool) hcomb h0 show_n show_j parse valid_elem valid_attr
    parse_t valid_an valid_tn blank (old new new' : document) (a : arena dnode) (b : nat),
  body old = None -> body new = None -> body new' = None ->
  let target := parity_target heqb hcomb h0 show_n show_j parse valid_elem valid_attr parse_t valid_an valid_tn blank in
  target old new a b = target old new' a b /\
  target old new a b <> Val FzTraces /\ target old new a b <> Val FzDiffFailed /\
  (forall parse' valid_elem' valid_attr' parse_t',
     target old new a b =
     parity_target heqb hcomb h0 show_n show_j parse' valid_elem' valid_attr' parse_t' valid_an valid_tn blank old new a b).
Proof.
  intros H heqb hcomb h0 sn sj parse ve vat pt van vtn blank old new new' a b Eo En En' target.
  assert (forall n, body n = None -> diff heqb hcomb h0 old n = Val []) as HD.
  { intros n E. unfold diff. by rewrite Eo, E. }
  unfold target, parity_target. rewrite (HD new En), (HD new' En'). cbn [patches_valid forallb negb].
  unfold browser_capture, capture. cbn [record]. destruct (document_tree old) as [t|]; [|done].
  split; [done|]. split; [|split; [|done]].
  - destruct (wrapped a b) as [w|]; [|done]. cbn [obind tr_initial]. destruct (serialize_inner_html a b); [|done].
    destruct (blank s); [done|]. destruct (domnode_eqb t w) eqn:E; cbn [negb]; [|done].
    destruct (init_patch_slots old) as [[d1 sl]| | |]; cbn [obind]; try done.
    unfold same_traces. cbn [tr_initial tr_steps list_same]. by rewrite E.
  - destruct (wrapped a b) as [w|]; [|done]. cbn [obind tr_initial]. destruct (serialize_inner_html a b); [|done].
    destruct (blank s); [done|]. destruct (domnode_eqb t w); cbn [negb]; [|done].
    destruct (init_patch_slots old) as [[d1 sl]| | |]; cbn [obind]; try done. by destruct (same_traces _ _).
Qed.
Print Assumptions parity_target_blind.

(** With patches it could only fail: [init_patch_slots] gives the document a body,
    the native tree is then the body's and the browser's is the one wrapped in
    [html]. *)

Lemma bodied (d d1 : document) sl : wf (doc_arena d) -> doc_root d < length (doc_arena d) -> body d = None ->
  init_patch_slots d = Val (d1, sl) -> wf (doc_arena d1) /\ exists b, body d1 = Some b /\ sl = [(0, b)].
Proof.
  intros W Hr Eb. unfold init_patch_slots, ensure_body. rewrite Eb. set (a := doc_arena d) in *.
  destruct (new_node_full a (elem "body" [] NsHtml) W) as (W1 & L1 & P1 & C1 & D1 & Cj & Pj & Dj).
  change (new_node a (elem "body" [] NsHtml)) with (fst (new_node a (elem "body" [] NsHtml)), length a).
  set (a1 := fst (new_node a (elem "body" [] NsHtml))) in *. cbv iota beta.
  destruct (append_full a1 (doc_root d) (length a)) as (a2 & E2 & K); [done|lia|lia|done| |].
  { apply leaf_not_above; [done|done|lia]. }
  rewrite E2. cbn [obind]. intros [= <- <-]. cbn [doc_arena]. destruct K as [W2 L2 D2 C2 P2]. split; [done|].
  exists (length a). split; [|done]. unfold body, body_in. cbn [doc_arena doc_root]. rewrite C2.
  rewrite Nat.eqb_refl, Cj.
  assert (forall l, (forall j, j ∈ l -> j < length a) -> find (has_tag a "body") l = None ->
    find (has_tag a2 "body") (l ++ [length a])%list = Some (length a)) as HF.
  { induction l as [|j l IH]; intros Hl Hf.
    - cbn. unfold has_tag, node_kind. rewrite D2, D1. done.
    - cbn in *. assert (has_tag a2 "body" j = has_tag a "body" j) as ->.
      { unfold has_tag, node_kind. rewrite D2, Dj; [done|]. pose proof (Hl j (elem_of_list_here _ _)). lia. }
      destruct (has_tag a "body" j); [done|]. apply IH; [|done]. intros i Hi. apply Hl. by right. }
  apply HF; [|exact Eb]. intros j Hj. by eapply wf_child_lt.
Qed.

Theorem parity_traces_differ : forall show_n show_j parse valid_elem valid_attr parse_t (old : document)
    (a : arena dnode) (b : nat) ps nt bt i x y,
  wf (doc_arena old) -> doc_root old < length (doc_arena old) -> body old = None ->
  (forall p, p ∈ ps -> hits_body p = false) ->
  capture show_n parse old ps = Val nt ->
  browser_capture show_j valid_elem valid_attr parse_t a b ps = Val bt ->
  tr_steps nt !! i = Some (StepOk x) -> tr_steps bt !! i = Some (StepOk y) ->
  x <> y /\ same_traces nt bt = false.
Proof.
  intros sn sj parse ve vat pt old a b ps nt bt i x y W Hr Eb HB EN EB Hx Hy.
  assert (x <> y) as Hxy.
  - assert (exists l cs, x = DElem "body" l cs) as (l & cs & ->).
    { destruct (trace_is_application _ _ _ _ _ EN) as (_ & HL & HO & _).
      destruct (proj1 (HO i x) Hx) as [Hi (d' & Hd & Ht)]. clear HO. unfold patched_to in Hd.
      unfold apply_patches in Hd. destruct (firstn (S i) ps) as [|p0 qs] eqn:Eq; [by destruct ps; cbn in *; [lia|]|].
      destruct (init_patch_slots old) as [[d1 sl]| | |] eqn:EI; try done.
      destruct (bodied old d1 sl W Hr Eb EI) as (W1 & b1 & Eb1 & ->).
      assert (apply_patches parse d1 (p0 :: qs) = (d', Val tt)) as Hd1.
      { unfold apply_patches, init_patch_slots, ensure_body. rewrite Eb1. exact Hd. }
      destruct (outside_body_untouched parse d1 b1 (p0 :: qs) W1 Eb1) as (_ & _ & Hb' & _).
      { intros p Hp. apply HB. rewrite <- Eq in Hp. rewrite <- (take_drop (S i) ps). apply elem_of_app. by left. }
      rewrite Hd1 in Hb'. cbn [fst] in Hb'. unfold document_tree, body_or_root in Ht. rewrite Hb' in Ht.
      unfold body, body_in in Hb'. apply find_some in Hb' as [_ Hb']. unfold has_tag in Hb'.
      unfold native_node, tree_fuel in Ht. cbn [dom_node_f] in Ht.
      destruct (node_kind (doc_arena d') b1) as [[|tg at_| |]|]; try done. apply String.eqb_eq in Hb' as ->.
      destruct (all_some _ _); [|done]. injection Ht as <-. by eexists _, _. }
    assert (exists cs', y = DElem "html" [] cs') as [cs' ->]; [|done].
    unfold browser_capture in EB. destruct (wrapped a b); [|done].
    destruct (record _ _ _ _ ps) as [lb| | |] eqn:ER; try done. injection EB as <-.
    destruct (record_right _ _ _ _ _ _ ER) as [_ HS]. destruct (HS _ _ Hy) as (st' & _ & Hl).
    unfold wrapped in Hl. destruct (all_some _ _); [|done]. injection Hl as <-. by eexists.
  - split; [done|]. unfold same_traces. apply andb_false_iff. right.
    destruct (tr_steps nt) as [|s l] eqn:En; [done|]. rewrite <- En in *. clear En s l.
    revert i Hx Hy. generalize (tr_steps bt). induction (tr_steps nt) as [|s l IH]; intros l' i Hx Hy; [done|].
    destruct l' as [|s' l']; [done|]. cbn [list_same]. destruct i as [|i]; cbn in Hx, Hy.
    + injection Hx as ->. injection Hy as ->. cbn [same_step].
      destruct (domnode_eqb x y) eqn:E; [|done]. by apply trees_equal in E.
    + apply andb_false_iff. right. by apply (IH l' i).
Qed.
Print Assumptions parity_traces_differ.

(** ** Examples *)

(** html5ever's callbacks for [<p>a</p>] and [<p>b</p><i></i>] as fragments: the
    context element is made first and stays outside. *)
Definition ex_fragment_calls (s : string) : list sink_call :=
  [SCreateElement "body" NsHtml []; SCreateElement "html" NsHtml []; SAppend 0 (AppendNode 2);
   SCreateElement "p" NsHtml []; SAppend 2 (AppendNode 3); SAppend 3 (AppendText s)].
Definition ex_frag_a : document := Eval vm_compute in
  match parse_body_fragment ex_fragment_calls "a" with Val d => d | _ => mk_doc [] [] end.
Definition ex_frag_b : document := Eval vm_compute in
  match parse_body_fragment ex_fragment_calls "b" with Val d => d | _ => mk_doc [] [] end.
(** The browser's page after [body.innerHTML = "<p>a</p>"]. *)
Definition ex_live : arena dnode := doc_arena (mk_doc [] [el "p" [tx "a"]]).
Definition ex_live_body : nat := match body (mk_doc [] [el "p" [tx "a"]]) with Some b => b | None => 0 end.
Definition ex_show (e : diff_error) : string := match e with PathOutOfBounds _ => "out of bounds" | _ => "error" end.
Definition ex_target (old new : document) : outcome fuzz_verdict :=
  parity_target Nat.eqb (fun _ _ _ => 0) 0 ex_show ex_show no_parser (fun _ => true) (fun _ => true)
    no_parser (fun _ => true) (fun _ => true) (fun s => String.eqb s "") old new ex_live ex_live_body.

(** The two fragments differ, and the target passes without a patch. *)
Example parity_blind_example :
  body ex_frag_a = None /\ body ex_frag_b = None /\ document_tree ex_frag_a <> document_tree ex_frag_b /\
  document_tree ex_frag_a = Some (DElem "html" [] [DElem "p" [] [DText "a"]]) /\
  ex_target ex_frag_a ex_frag_b = Val FzPassed /\ ex_target ex_frag_a ex_frag_a = Val FzPassed /\
  ex_target ex_frag_b ex_frag_a = Val FzInitialTrees.
Proof. vm_compute. split_and!; done. Qed.

Definition ex_fuzz_patches : list patch :=
  [PInsertText [0; 0] "t" None; PSetText [0; 9] "u"; PInsertText [0; 0] "v" None].
Example parity_differ_example :
  (forall p, p ∈ ex_fuzz_patches -> hits_body p = false) /\
  (exists nt bt, capture ex_show no_parser ex_frag_a ex_fuzz_patches = Val nt /\
     browser_capture ex_show (fun _ => true) (fun _ => true) no_parser ex_live ex_live_body ex_fuzz_patches = Val bt /\
     tr_steps nt !! 0 = Some (StepOk (DElem "body" [] [DText "t"])) /\
     tr_steps bt !! 0 = Some (StepOk (DElem "html" [] [DText "t"]))).
Proof.
  split; [intros p; unfold ex_fuzz_patches; rewrite !elem_of_cons, elem_of_nil; naive_solver|].
  eexists _, _. split; [vm_compute; reflexivity|]. split; [vm_compute; reflexivity|]. done.
Qed.

(** A run that fails at its second patch. *)
Example trace_example :
  let d := mk_doc [] [el "p" [tx "a"]] in
  capture ex_show no_parser d ex_fuzz_patches =
    Val (mkTrace (DElem "body" [] [DElem "p" [] [DText "a"]])
           [StepOk (DElem "body" [] [DText "t"; DElem "p" [] [DText "a"]]);
            StepFailed "out of bounds" (DElem "body" [] [DText "t"; DElem "p" [] [DText "a"]]);
            StepFailed skipped (DElem "body" [] [DText "t"; DElem "p" [] [DText "a"]])]) /\
  (forall p, p ∈ ex_fuzz_patches -> ~ is_move_patch p).
Proof.
  split; [vm_compute; reflexivity|]. intros p. unfold ex_fuzz_patches, is_move_patch.
  rewrite !elem_of_cons, elem_of_nil. intros [->|[->|[->|[]]]] (f & t & s & [=]).
Qed.
