(** C79: a patch that suits the page is applied natively and in a browser to the
    same effect, patch by patch. *)
From Verif Require Import Base Arena Matching Chawathe Dom HtmlDiff Browser Fuzz Parity
  ArenaProofs ArenaOps TreeProofs DomTree ApplyProofs SimProofs Applier BrowserProofs IsoProofs StepProofs
  WfCheck Instances InstanceProofs PropAlike PropBrowser PropFuzz.
Local Open Scope string_scope.

(** ** The same page *)

Lemma iso_more R a b l : iso R a b -> iso R (a ++ l)%list b.
Proof.
  intros [Lt F I K E C P].
  assert (forall i, i < length a -> (a ++ l)%list !! i = a !! i) as Ha by (intros i Hi; by apply lookup_app_l).
  split; try done.
  - intros i j Hij. rewrite app_length. destruct (Lt i j Hij). lia.
  - intros i j Hij. rewrite <- (K i j Hij). unfold node_kind, data. by rewrite Ha by (by eapply Lt).
  - intros i j t x Hij Hk. unfold node_kind, data in *. rewrite Ha in * by (by eapply Lt). by apply (E i j t x).
  - intros i j Hij. unfold children at 1. rewrite Ha by (by eapply Lt). by apply C.
  - intros i j Hij. unfold parent at 1. rewrite Ha by (by eapply Lt). by apply P.
Qed.

Lemma vw_holds a h : forall i, holds a h i -> holds (vw a) (btree h) i.
Proof.
  induction h as [s|s|tag ns ats cs IH] using htree_ind'; intros i.
  - intros [Hk Hc]. split; [by rewrite vw_kind, Hk|by rewrite vw_children].
  - intros [Hk Hc]. split; [by rewrite vw_kind, Hk|by rewrite vw_children].
  - intros H. apply holds_elem in H as [Hd Hc]. cbn [btree]. apply holds_elem.
    split; [by rewrite vw_data, Hd|]. rewrite vw_children. revert Hc. unfold holds_list.
    generalize (children a i). induction cs as [|c cs IHcs]; intros l Hc; inversion Hc; subst; constructor.
    + apply IH; [left|done]. + apply IHcs; [|done]. intros x Hx. apply IH. by right.
Qed.

Lemma vw_holds_inv a g : forall i, holds (vw a) g i -> exists h, g = btree h /\ holds a h i.
Proof.
  induction g as [s|s|tag ns ats cs IH] using htree_ind'; intros i.
  - intros [Hk Hc]. rewrite vw_kind in Hk. rewrite vw_children in Hc. exists (HText s). split; [done|]. split; [|done].
    destruct (node_kind a i) as [[]|]; try done; by injection Hk as ->.
  - intros [Hk Hc]. rewrite vw_kind in Hk. rewrite vw_children in Hc. exists (HComment s). split; [done|]. split; [|done].
    destruct (node_kind a i) as [[]|]; try done; by injection Hk as ->.
  - intros H. apply holds_elem in H as [Hd Hc]. rewrite vw_data in Hd. rewrite vw_children in Hc.
    destruct (data a i) as [[[|t l| |] n]|] eqn:Ed; try done. injection Hd as -> <- <-.
    assert (exists hs, cs = map btree hs /\ holds_list a hs (children a i)) as (hs & -> & Hs).
    { revert Hc. unfold holds_list. generalize (children a i). clear Ed. induction cs as [|c cs IHcs]; intros k Hc; inversion Hc; subst.
      - exists []. split; [done|constructor].
      - destruct (IH c ltac:(left) _ ltac:(done)) as (h & -> & Hh). destruct (IHcs ltac:(intros; apply IH; [by right|done]) _ ltac:(done)) as (hs & -> & Hs).
        exists (h :: hs). split; [done|by constructor]. }
    exists (HElem tag n l hs). split; [done|]. by apply holds_elem.
Qed.

(** ** Trees *)

Lemma all_some_rel {A B C} (f : A -> option C) (g : B -> option C) (P : A -> B -> Prop) l l' :
  (forall x y, P x y -> f x = g y) -> Forall2 P l l' -> all_some f l = all_some g l'.
Proof. intros H. induction 1 as [|x y l l' Hxy Hl IH]; cbn [all_some]; [done|]. by rewrite (H x y Hxy), IH. Qed.

Lemma iso_dom ats R a b f : iso R a b -> forall i j, R i j -> dom_node_f ats f a i = dom_node_f ats f b j.
Proof.
  intros I. induction f as [|f IH]; intros i j Hij; [done|]. cbn [dom_node_f].
  rewrite (is_kind _ _ _ I i j Hij). destruct (node_kind b j) as [[|t l| |]|]; try done.
  by rewrite (all_some_rel _ (dom_node_f ats f b) R _ (children b j)) by (try done; by apply (is_children _ _ _ I)).
Qed.

Lemma all_some_ext {A B} (f g : A -> option B) l : (forall x, f x = g x) -> all_some f l = all_some g l.
Proof. intros H. induction l as [|x l IH]; cbn [all_some]; [done|]. by rewrite H, IH. Qed.

Lemma vw_dom a f : forall i, dom_node_f (fun _ => browser_attrs) f (vw a) i =
  dom_node_f (fun _ l => sort_attrs (map (fun kv => (bname (fst kv), snd kv)) l)) f a i.
Proof.
  induction f as [|f IH]; intros i; [done|]. cbn [dom_node_f]. rewrite vw_kind, vw_children.
  rewrite (all_some_ext _ _ (children a i) IH).
  destruct (node_kind a i) as [[|t l| |]|]; cbn [option_map vkind]; try done.
  unfold browser_attrs, battrs. by rewrite map_map.
Qed.

Lemma all_some_more {A B} (f g : A -> option B) l v : (forall x y, f x = Some y -> g x = Some y) ->
  all_some f l = Some v -> all_some g l = Some v.
Proof.
  intros H. revert v. induction l as [|x l IH]; intros v; cbn [all_some]; [done|].
  destruct (f x) as [y|] eqn:E; [|done]. rewrite (H x y E).
  destruct (all_some f l) as [w|]; [|done]. by rewrite (IH w eq_refl).
Qed.
Lemma dom_more ats a f : forall f' i x, f <= f' -> dom_node_f ats f a i = Some x -> dom_node_f ats f' a i = Some x.
Proof.
  induction f as [|f IH]; intros f' i x Hf; [done|]. destruct f' as [|f']; [lia|]. cbn [dom_node_f].
  destruct (node_kind a i) as [[|t l| |]|]; try done.
  destruct (all_some (dom_node_f ats f a) (children a i)) as [v|] eqn:E; [|done].
  rewrite (all_some_more (dom_node_f ats f a) (dom_node_f ats f' a) _ v); [done| |done].
  intros y z Hy. apply IH; [lia|done].
Qed.

(** ** One patch *)

Section Run.
  Variables valid_elem valid_attr : string -> bool.
  Variables parse_template parse_inner : string -> list htree.

  Definition locked (R : nrel) (st : pstate) (bd : nat) (stb : pstate) (bb : nat) : Prop :=
    exists slx, lock (fst st) (snd st) bd slx /\ strel R (vw (fst st), slx) stb /\ R bd bb.

  Lemma locked_step R st bd stb bb p stb' : locked R st bd stb bb ->
    fitb valid_elem valid_attr (fst st) (snd st) p = true ->
    b_apply_patch valid_elem valid_attr parse_template bb stb p = (stb', Val tt) ->
    exists st' R', apply_patch parse_inner st p = (st', Val tt) /\ sub R R' /\ locked R' st' bd stb' bb.
  Proof using Type.
    intros (slx & L & S & Hr) Hf Hb. destruct st as [a sl]. cbn [fst snd] in *.
    destruct (b_apply_patch_rel valid_elem valid_attr parse_template bd bb R (vw a, slx) stb p S Hr) as [E (R1 & HS & S1)].
    rewrite Hb in E, S1. cbn [fst snd] in E, S1.
    destruct (b_apply_patch valid_elem valid_attr parse_template bd (vw a, slx) p) as [[bx slx'] o] eqn:Ex.
    cbn [fst snd] in E, S1. subst o.
    destruct (patch_step valid_elem valid_attr parse_template parse_inner a sl bd slx p bx slx' L Hf Ex)
      as (a' & sl' & E' & L' & l & V).
    exists (a', sl'), R1. split; [done|]. split; [done|]. exists slx'. cbn [fst snd]. split; [done|]. split; [|by apply HS].
    rewrite V. destruct S1 as [I1 Sl1]. split; [by apply iso_more|done].
  Qed.

  Lemma locked_look R st bd stb bb y : locked R st bd stb bb -> browser_node (fst stb) bb = Some y ->
    dom_view (fst st) bd = Some y.
  Proof using Type.
    intros (slx & L & S & Hr) Hy. destruct st as [a sl]. cbn [fst snd] in *.
    assert (exists x, dom_view a bd = Some x) as [x Hx].
    { destruct (tree_exists a bd (lo_wf _ _ _ _ L)) as (r & <- & Ht). apply rose_dom; [done|].
      pose proof (rheight_lt_size r). pose proof (is_tree_size a r (lo_wf _ _ _ _ L) Ht (lo_lt _ _ _ _ L)). unfold tree_fuel. lia. }
    rewrite Hx. f_equal. unfold dom_view in Hx. rewrite <- vw_dom in Hx. unfold browser_node in Hy.
    rewrite (iso_dom _ _ _ _ _ (st_iso _ _ _ S) _ _ Hr) in Hx. cbn [fst] in Hx.
    apply (dom_more _ _ _ (tree_fuel a + tree_fuel (fst stb))) in Hx; [|lia].
    apply (dom_more _ _ _ (tree_fuel a + tree_fuel (fst stb))) in Hy; [|lia]. congruence.
  Qed.

  Lemma locked_record show_n show_j bd bb ps : forall R st stb l, locked R st bd stb bb ->
    suits valid_elem valid_attr parse_inner st ps = true ->
    record (b_apply_patch valid_elem valid_attr parse_template bb) (fun st => browser_node (fst st) bb) show_j stb ps = Val l ->
    forallb is_ok l = true ->
    record (apply_patch parse_inner) (fun st => dom_view (fst st) bd) show_n st ps = Val l.
  Proof using Type.
    induction ps as [|p ps IH]; intros R st stb l K Hs Hb Hok; [done|]. cbn [suits record] in *.
    apply andb_true_iff in Hs as [Hf Hs].
    destruct (b_apply_patch _ _ _ bb stb p) as [stb1 [[]|e| |]] eqn:Ep; try done.
    - destruct (locked_step R st bd stb bb p stb1 K Hf Ep) as (st1 & R1 & E1 & _ & K1). rewrite E1 in Hs |- *.
      destruct (browser_node (fst stb1) bb) as [t|] eqn:Et; [|done]. rewrite (locked_look _ _ _ _ _ _ K1 Et).
      destruct (record _ _ show_j stb1 ps) as [l'| | |] eqn:Er; try done. injection Hb as <-. cbn in Hok.
      by rewrite (IH R1 st1 stb1 l' K1 Hs Er Hok).
    - destruct (browser_node (fst stb1) bb) as [t|]; [|done].
      destruct (record_skipped _ stb1 ps); try done. by injection Hb as <-.
  Qed.

  Lemma locked_all bd bb ps : forall R st stb stb', locked R st bd stb bb ->
    suits valid_elem valid_attr parse_inner st ps = true ->
    b_apply_all valid_elem valid_attr parse_template bb stb ps = (stb', Val tt) ->
    exists st' R', apply_all parse_inner st ps = (st', Val tt) /\ sub R R' /\ locked R' st' bd stb' bb.
  Proof using Type.
    induction ps as [|p ps IH]; intros R st stb stb' K Hs Hb; cbn [suits b_apply_all apply_all] in *.
    - injection Hb as <-. exists st, R. split; [done|]. split; [apply sub_refl|done].
    - apply andb_true_iff in Hs as [Hf Hs].
      destruct (b_apply_patch _ _ _ bb stb p) as [stb1 [[]|e| |]] eqn:Ep; try done.
      destruct (locked_step R st bd stb bb p stb1 K Hf Ep) as (st1 & R1 & E1 & HS & K1). rewrite E1 in Hs |- *.
      destruct (IH R1 st1 stb1 stb' K1 Hs Hb) as (st' & R' & E' & HS' & K'). exists st', R'. split; [done|].
      split; [by eapply sub_trans|done].
  Qed.
End Run.

Lemma body_lt d b : wf (doc_arena d) -> body d = Some b -> b < length (doc_arena d).
Proof. intros W E. unfold body, body_in in E. apply find_some in E as [Hin _]. apply elem_of_list_In in Hin. by eapply wf_child_lt. Qed.

(** At the start. *)
Lemma pages_locked (d db : document) h b bb : page_of d h -> page_of db (btree h) -> body d = Some b -> body db = Some bb ->
  exists R, locked R (doc_arena d, [(0, b)]) b (doc_arena db, []) bb /\ R (doc_root d) (doc_root db).
Proof.
  intros [W P H] [W' P' H'] Eb Eb'.
  set (dv := mkDoc (vw (doc_arena d)) (doc_root d) (doc_doctype d)).
  assert (iso (same_path (doc_arena dv) (doc_arena db) (doc_root dv) (doc_root db)) (doc_arena dv) (doc_arena db)) as I.
  { apply (iso_same_tree _ _ (btree h)); [by apply vw_wf|done|by apply vw_holds|done|by cbn; rewrite vw_parent|done]. }
  eexists. split; [|apply same_root]. exists []. cbn [fst snd]. split.
  - split; try done. by apply (body_lt d).
  - split; [split; [exact I|]|].
    + intros k. constructor.
    + assert (body dv = Some b) as Ev.
      { rewrite <- Eb. unfold body, body_in. cbn [dv doc_arena doc_root]. rewrite vw_children.
        generalize (children (doc_arena d) (doc_root d)). intros l. induction l as [|x l IH]; [done|]. cbn [find].
        assert (has_tag (vw (doc_arena d)) "body" x = has_tag (doc_arena d) "body" x) as ->; [|by rewrite IH].
        unfold has_tag. rewrite vw_kind. by destruct (node_kind (doc_arena d) x) as [[]|]. }
      pose proof (iso_body _ dv db I (same_root _ _ _ _)) as O. rewrite Ev, Eb' in O. by inversion O.
Qed.

(** ** Theorems *)

(** A recorded run in the browser without an error is the native one, tree by
    tree. *)
Theorem same_trees_step_by_step : forall valid_elem valid_attr parse_template parse_inner show_n show_j
    (d db : document) h b bb ps l,
  page_of d h -> page_of db (btree h) -> body d = Some b -> body db = Some bb ->
  suits valid_elem valid_attr parse_inner (doc_arena d, [(0, b)]) ps = true ->
  record (b_apply_patch valid_elem valid_attr parse_template bb) (fun st => browser_node (fst st) bb) show_j
    (doc_arena db, []) ps = Val l ->
  forallb is_ok l = true ->
  record (apply_patch parse_inner) (fun st => dom_view (fst st) b) show_n (doc_arena d, [(0, b)]) ps = Val l.
Proof.
  intros ve vat pt pin sn sj d db h b bb ps l Hd Hdb Eb Eb' Hs Hr Hok.
  destruct (pages_locked d db h b bb Hd Hdb Eb Eb') as (R & K & _).
  by apply (locked_record ve vat pt pin sn sj b bb ps R _ (doc_arena db, [])).
Qed.
Print Assumptions same_trees_step_by_step.

(** The whole pages afterwards. *)
Theorem same_pages_afterwards : forall valid_elem valid_attr parse_template parse_inner
    (d db db' : document) h b ps,
  page_of d h -> page_of db (btree h) -> body d = Some b ->
  suits valid_elem valid_attr parse_inner (doc_arena d, [(0, b)]) ps = true ->
  browser_apply valid_elem valid_attr parse_template db ps = (db', Val tt) ->
  exists d', apply_patches parse_inner d ps = (d', Val tt) /\
    forall g, holds (doc_arena db') g (doc_root db') <->
      exists g0, g = btree g0 /\ holds (doc_arena d') g0 (doc_root d').
Proof.
  intros ve vat pt pin d db db' h b ps Hd Hdb Eb Hs Hb. unfold browser_apply in Hb.
  destruct (body db) as [bb|] eqn:Eb'; [|done].
  destruct (b_apply_all ve vat pt bb (doc_arena db, []) ps) as [[ab slb] r] eqn:Er. injection Hb as <- ->. cbn [doc_arena doc_root].
  destruct (pages_locked d db h b bb Hd Hdb Eb Eb') as (R & K & Hroot).
  destruct (locked_all ve vat pt pin b bb ps R _ _ _ K Hs Er) as ([a' sl'] & R' & E & HS & (slx & L & S & Hr)).
  cbn [fst snd] in L, S. pose proof (st_iso _ _ _ S) as I. cbn [fst] in I. apply HS in Hroot.
  assert (exists d', apply_patches pin d ps = (d', Val tt) /\ doc_arena d' = a' /\ doc_root d' = doc_root d) as (d' & E' & <- & Hd').
  { unfold apply_patches. destruct ps as [|p ps].
    - exists d. split; [done|]. injection E as <- _. done.
    - unfold init_patch_slots, ensure_body. rewrite Eb. cbn [obind].
      exists (mkDoc a' (doc_root d) (doc_doctype d)). split; [|done].
      exact (f_equal (fun r : presult => let '((a, _), o) := r in (mkDoc a (doc_root d) (doc_doctype d), o)) E). }
  exists d'. split; [done|]. intros g. rewrite Hd'. split.
  - intros Hg. apply vw_holds_inv. by apply (iso_holds _ _ _ (iso_flip _ _ _ I) g _ _ Hroot).
  - intros (g0 & -> & Hg). apply (iso_holds _ _ _ I (btree g0) _ _ Hroot). by apply vw_holds.
Qed.
Print Assumptions same_pages_afterwards.


(** ** Each condition is needed *)

Definition ex_any (s : string) : bool := true.
Definition ex_par_old : list htree :=
  [el "p" [tx "a"]; el_a "a" [(mkQ (Some "xlink") "x" "href", "u"); ex_attr "id" "v"] [tx "t"]; HComment "c"].
Definition ex_par_d : document := mk_doc [] ex_par_old.
Definition ex_par_db : document := mk_doc [] (map btree ex_par_old).
Definition ex_par_h : htree := HElem "html" NsHtml [] [el "head" []; el "body" ex_par_old].
Definition ex_par_parser (s : string) : list htree := [HText s].
Definition ex_par_native (ps : list patch) : outcome (list step) :=
  record (apply_patch ex_par_parser) (fun st => dom_view (fst st) 2) ex_show (doc_arena ex_par_d, [(0, 2)]) ps.
Definition ex_par_browser (ps : list patch) : outcome (list step) :=
  record (b_apply_patch ex_any ex_any ex_par_parser 2) (fun st => browser_node (fst st) 2) ex_show (doc_arena ex_par_db, []) ps.

Lemma ex_par_pages : page_of ex_par_d ex_par_h /\ page_of ex_par_db (btree ex_par_h) /\
  body ex_par_d = Some 2 /\ body ex_par_db = Some 2.
Proof.
  split_and!; try by vm_compute.
  - constructor; [apply wf_check_sound; by vm_compute|by vm_compute|by vm_compute].
  - constructor; [apply wf_check_sound; by vm_compute|by vm_compute|by vm_compute].
Qed.

(** Patches that do not suit the page: the browser applies them, and shows
    another tree than the native document (or that has an error). *)
Definition ex_unsuited : list (list patch) :=
  [ (* something is at the place, and no slot takes it *)
    [PInsertText [0; 0] "n" None];
    [PMove [0; 2] [0; 0] None];
    (* names that a browser turns to lower case *)
    [PInsertElement [0; 3] "b" [ex_attr "A" "1"] [] None];
    [PSetAttribute [0; 1] (mkQ None "" "Id") "w"];
    [PRemoveAttribute [0; 1] (mkQ None "" "ID")];
    (* one name for two attributes *)
    [PSetAttribute [0; 1] (mkQ None "" "xlink:href") "w"];
    (* text of an element *)
    [PSetText [0; 1] "x"];
    [PUpdateProps [0; 1] [mkPC PText (Some "x")]];
    (* a value to keep that is not there, under the name of another *)
    [PUpdateProps [0; 1] [mkPC (PAttr (mkQ None "" "xlink:href")) None]];
    (* a slot that is not there; slot 0 *)
    [PRemove [3]];
    [PInsertText [0; 0] "n" (Some 0); PSetText [0] "z"];
    (* a slot whose node was put back *)
    [PInsertText [0; 0] "n" (Some 1); PMove [1] [0; 3] None; PRemove [1]];
    (* listeners of opaque elements *)
    [POpaqueChanged [0; 1] "x"] ].

Theorem unsuited_refuted : exists (d db : document) h b bb,
  page_of d h /\ page_of db (btree h) /\ body d = Some b /\ body db = Some bb /\
  forall ps, ps ∈ ex_unsuited ->
    suits ex_any ex_any ex_par_parser (doc_arena d, [(0, b)]) ps = false /\
    exists l, record (b_apply_patch ex_any ex_any ex_par_parser bb) (fun st => browser_node (fst st) bb) ex_show
        (doc_arena db, []) ps = Val l /\ forallb is_ok l = true /\
      record (apply_patch ex_par_parser) (fun st => dom_view (fst st) b) ex_show (doc_arena d, [(0, b)]) ps <> Val l.
Proof.
  exists ex_par_d, ex_par_db, ex_par_h, 2, 2. destruct ex_par_pages as (H1 & H2 & H3 & H4).
  split; [done|]. split; [done|]. split; [done|]. split; [done|].
  change (forall ps, ps ∈ ex_unsuited -> suits ex_any ex_any ex_par_parser (doc_arena ex_par_d, [(0, 2)]) ps = false /\
    exists l, ex_par_browser ps = Val l /\ forallb is_ok l = true /\ ex_par_native ps <> Val l).
  apply Forall_forall. unfold ex_unsuited.
  repeat constructor; vm_compute; try done; eexists; (split; [reflexivity|]); done.
Qed.
Print Assumptions unsuited_refuted.

(** ** Example *)

(** The patches of a diff, by the model: insertions, moves into new elements, nodes
    kept in slots, texts. *)
Definition ex_par_new : list htree :=
  [el "div" [el_a "a" [(mkQ (Some "xlink") "x" "href", "w"); ex_attr "id" "v"] [tx "t"]]; HComment "d";
   el "p" [tx "b"; el "i" []]].
Definition ex_par_patches : list patch := Eval vm_compute in
  match pdiff ex_par_d (mk_doc [] ex_par_new) with Val ps => ps | _ => [] end.
(** Others, with the attributes and a node taken away. *)
Definition ex_par_more : list patch :=
  [PUpdateProps [0; 1] [mkPC (PAttr (mkQ None "" "id")) None; mkPC (PAttr (mkQ None "" "class")) (Some "k")];
   PSetAttribute [0; 0] (mkQ None "" "id") "1"; PRemoveAttribute [0; 1] (mkQ None "" "id");
   PInsertText [0; 5] "far" None; PInsertElement [0; 2] "b" [ex_attr "id" "q"] [ICText "x"; ICElem "i" [] []] (Some 7);
   PRemove [7]; PMove [0; 0; 0] [0; 2; 2] None; PRemove [0; 0]].

Example parity_example :
  (page_of ex_par_d ex_par_h /\ page_of ex_par_db (btree ex_par_h) /\ body ex_par_d = Some 2 /\ body ex_par_db = Some 2) /\
  length ex_par_patches = 12 /\
  forall ps, ps ∈ [ex_par_patches; ex_par_more] ->
    suits ex_any ex_any ex_par_parser (doc_arena ex_par_d, [(0, 2)]) ps = true /\
    exists l, ex_par_browser ps = Val l /\ forallb is_ok l = true /\ ex_par_native ps = Val l /\
      length l = length ps.
Proof.
  split; [exact ex_par_pages|]. split; [by vm_compute|]. apply Forall_forall.
  repeat constructor; vm_compute; try done; eexists; (split; [reflexivity|]); done.
Qed.

Example parity_pages_example : snd (browser_apply ex_any ex_any ex_par_parser ex_par_db ex_par_more) = Val tt.
Proof. by vm_compute. Qed.
