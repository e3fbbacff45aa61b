(** Property theorems on matching and edit scripts: C03-C09, C28, the Dice part
    of C29 and the edit-operation part of C32. *)
From Verif Require Import Base Arena Matching Chawathe Dom HtmlDiff.
From Verif Require Import ArenaProofs ArenaOps TreeProofs MatchProofs DtreeProofs ScriptProofs HashProofs DomTree BuildProofs.
From Verif Require Import Instances InstanceProofs.
Local Open Scope string_scope.

(** A node is inside opaque content of the tree [r] viewed by [t] when it is a
    strict descendant of a node that [t] declares opaque. *)
Definition inside_opaque {H K P T} (t : dtree H K P T) (r : rose) (x : nat) : Prop :=
  exists s, subt s r /\ t_opaque t (rid s) = true /\ x ∈ preorder s /\ x <> rid s.

Lemma inside_opaque_desc {H K P T} (t : dtree H K P T) r x :
  presents t r -> (x ∈ opaque_descendants t <-> inside_opaque t r x).
Proof.
  intros PR. rewrite opaque_desc_elem. split.
  - intros (o & Ho & Eo & Hd & Hne).
    apply (pr_iter_subt t r PR) in Ho as (s & Hs & <-).
    exists s. by rewrite (pr_desc t r PR s Hs) in Hd.
  - intros (s & Hs & Eo & Hd & Hne). exists (rid s).
    rewrite (pr_desc t r PR s Hs). split_and!; try done.
    apply (pr_iter_subt t r PR). eauto.
Qed.

(** ** Example trees *)

Definition no_tree : dtree phash hkind attrs string :=
  mkDT _ _ _ _ 0 (fun _ => PH0) (fun _ => KText) (fun _ => []) (fun _ => None) (fun _ => None)
    (fun _ => []) (fun _ => 0) (fun _ => 0) [] [] (fun _ => []) (fun _ => false).
Definition tree_or (o : outcome (dtree phash hkind attrs string)) : dtree phash hkind attrs string :=
  match o with Val t => t | _ => no_tree end.

(** The two sides of a comparison of documents made by [mk_doc]: [left_tree] is
    the copy of the old body, [right_tree] the view on the new body. *)
Definition left_tree (b : list htree) : dtree phash hkind attrs string :=
  tree_or (old_tree (mk_doc [] b)).
Definition right_tree (b : list htree) : dtree phash hkind attrs string :=
  tree_or (new_tree (mk_doc [] b)).

Lemma right_tree_ok b : exists r,
  presents (right_tree b) r /\ rid r < length (doc_arena (mk_doc [] b)) /\
  is_tree (doc_arena (mk_doc [] b)) r /\
  mk_dtree PH PH0 tdata_of (doc_arena (mk_doc [] b)) (rid r) = Val (right_tree b).
Proof.
  destruct (mk_doc_ok [] b) as (W & _ & _ & _ & _ & _ & D & _ & _ & B).
  destruct (tree_exists (doc_arena (mk_doc [] b)) 2 W) as (r & Hr & Ht).
  apply data_lt in D.
  destruct (mk_dtree_presents PH PH0 tdata_of _ r W ltac:(by rewrite Hr) Ht) as (t & E & PR).
  exists r. unfold right_tree, new_tree. rewrite B. rewrite Hr in *. by rewrite E.
Qed.

Lemma left_tree_ok b : exists t r,
  presents (left_tree b) r /\ wf t /\ rid r < length t /\ is_tree t r /\
  mk_dtree PH PH0 (fun d => d) t (rid r) = Val (left_tree b).
Proof.
  destruct (mk_doc_ok [] b) as (W & _ & _ & _ & _ & _ & D & _ & HH & B).
  destruct (build_tree_ok _ 2 _ b W D HH) as (t & E & K).
  pose proof (bt_wf _ _ _ K) as Wt. pose proof (data_lt _ _ _ (bt_root _ _ _ K)) as L.
  destruct (tree_exists t 0 Wt) as (r & Hr & Ht).
  destruct (mk_dtree_presents PH PH0 (fun d => d) t r Wt ltac:(by rewrite Hr) Ht) as (u & E' & PR).
  exists t, r. unfold left_tree, old_tree. rewrite B, E. simpl. rewrite Hr in *. by rewrite E'.
Qed.

Lemma left_presents b : exists r, presents (left_tree b) r.
Proof. destruct (left_tree_ok b) as (t & r & ? & _). eauto. Qed.
Lemma right_presents b : exists r, presents (right_tree b) r.
Proof. destruct (right_tree_ok b) as (r & ? & _). eauto. Qed.

Lemma ex_faithful b b' : faithful_hashes phash_eqb (left_tree b) (right_tree b').
Proof.
  destruct (left_tree_ok b) as (t & r & _ & W & L & Ht & E).
  destruct (right_tree_ok b') as (r' & _ & L' & Ht' & E').
  destruct (mk_doc_ok [] b') as (W' & _).
  by eapply (collision_free_faithful phash_eqb PH PH0 (fun d => d) tdata_of t
           (doc_arena (mk_doc [] b')) r r' _ _ phash_collision_free).
Qed.

Definition opaque_el (cs : list htree) : htree := el_a "div" [ex_attr opaque_attr ""] cs.
Definition ex_a := left_tree
  [el "p" [tx "one"]; el_a "div" [ex_attr "id" "x"] [el "b" [tx "two"]; tx "three"];
   opaque_el [el "i" [tx "in"]]; el "i" [tx "gone"]].
Definition ex_b := right_tree
  [el_a "div" [ex_attr "id" "y"] [tx "three"; el "b" [tx "two"]; el "u" []];
   opaque_el [el "i" [tx "changed"]]; el "p" [tx "one!"]].
Definition ex_m : matching :=
  match html_matching phash_eqb ex_a ex_b with Val m => m | _ => m_empty end.
Definition ex_script := html_edit_script ex_a ex_b ex_m.

(** The script of the example, for reference. *)
Example ex_script_value : ex_script =
  [UpdateProperties 3 3 [mkPC (PAttr (mkQ None "" "id")) (Some "y")];
   SetText 2 12 "one!"; Insert 7 3 2 (KElem "u" NsHtml); Insert 11 2 2 (KElem "p" NsHtml);
   Move 7 8 2 1; Move 6 4 3 0; Move 4 5 3 1; Move 3 3 2 0; Move 2 12 11 0;
   Delete 1; Delete 11; Delete 10].
Proof. vm_compute. reflexivity. Qed.

(** ** C03 *)

Theorem matching_is_partial_bijection :
  forall {H K P T} (heqb : H -> H -> bool) (keqb : K -> K -> bool) (sim : P -> P -> ratio)
         (cfg : config) (ta tb : dtree H K P T) (m : matching),
  compute_matching heqb keqb sim cfg ta tb = Val m ->
  (forall a b, get_b m a = Some b <-> (a, b) ∈ m_pairs m) /\
  (forall a b, get_a m b = Some a <-> (a, b) ∈ m_pairs m) /\
  (forall a b b', (a, b) ∈ m_pairs m -> (a, b') ∈ m_pairs m -> b = b') /\
  (forall a a' b, (a, b) ∈ m_pairs m -> (a', b) ∈ m_pairs m -> a = a') /\
  NoDup (m_pairs m).
Proof.
  intros H K P T heqb keqb sim cfg ta tb m E.
  apply compute_matching_bijection in E as [F B NA NB]. split_and!; [done|done| | |].
  - intros a b b' H1 H2. apply F in H1, H2. congruence.
  - intros a a' b H1 H2. apply B in H1, H2. congruence.
  - by eapply NoDup_fmap_1.
Qed.
Print Assumptions matching_is_partial_bijection.

Example matching_example :
  exists m, compute_matching phash_eqb hkind_eqb props_sim diff_config ex_a ex_b = Val m /\
            length (m_pairs m) = 6.
Proof. eexists. split; vm_compute; reflexivity. Qed.

(** The matching used by [diff] also matches the two bodies by force
    (diff.rs:1078-1083).  If the old document has a second [body] element inside
    its body, that second body may already be matched to the new body, and the
    result is not injective. *)
Theorem forced_body_match_refuted : exists old new m a a' b,
  html_matching phash_eqb (left_tree old) (right_tree new) = Val m /\
  (a, b) ∈ m_pairs m /\ (a', b) ∈ m_pairs m /\ a <> a'.
Proof.
  exists [tx "x"; el "body" []], [], (mkM [Some 2; None; Some 2] [None; None; Some 0] [(2, 2); (0, 2)]), 2, 0, 2.
  split; [vm_compute; reflexivity|]. simpl. split; [left|]. split; [right; left|lia].
Qed.
Print Assumptions forced_body_match_refuted.

(** Then the patches do not lead to the new document. *)
Theorem nested_body_roundtrip_refuted : exists old new,
  roundtrip (mk_doc [] old) (mk_doc [] new) <> to_body_html (mk_doc [] new) /\
  roundtrip (mk_doc [] old) (mk_doc [] new) <> None.
Proof. exists [tx "x"; el "body" []], []. vm_compute. split; discriminate. Qed.
Print Assumptions nested_body_roundtrip_refuted.

(** When no pair of the computed matching uses the new body, the forced pair
    keeps the matching a partial bijection. *)
Theorem forced_body_match_bijection :
  forall {H} (heqb : H -> H -> bool) (ta tb : dtree H hkind attrs string) ra rb m,
  presents ta ra -> presents tb rb -> no_collision heqb ta tb ->
  (forall a, a ∈ t_iter ta -> a <> t_root ta -> t_kind ta a <> t_kind tb (t_root tb)) ->
  (forall b, b ∈ t_iter tb -> b <> t_root tb -> t_kind tb b <> t_kind ta (t_root ta)) ->
  html_matching heqb ta tb = Val m ->
  bijection m /\
  (t_kind ta (t_root ta) = t_kind tb (t_root tb) -> get_b m (t_root ta) = Some (t_root tb)).
Proof.
  intros H heqb ta tb ra rb m PA PB NC Hk Hk' E. unfold html_matching in E.
  destruct (compute_matching heqb hkind_eqb props_sim diff_config ta tb) as [m0| | |] eqn:E0; try done.
  simpl in E. pose proof (compute_matching_bijection _ _ _ _ _ _ _ E0) as B0.
  assert (forall a, get_a m0 (t_root tb) = Some a -> a = t_root ta) as Hroot.
  { intros a Ha. apply (bij_bwd _ B0) in Ha.
    destruct (decide (a = t_root ta)) as [|Hne]; [done|]. exfalso.
    destruct (compute_matching_iter heqb _ _ _ ta tb ra rb PA PB m0 _ _ E0 Ha) as [Hai _].
    apply (Hk a Hai Hne).
    eapply (compute_matching_kinds heqb hkind_eqb); try done.
    intros x y. apply hkind_eqb_eq. }
  destruct (hkind_eqb (t_kind ta (t_root ta)) (t_kind tb (t_root tb))) eqn:Ek; simpl in E.
  - destruct (contains_a m0 (t_root ta)) eqn:Ec; simpl in E; injection E as <-.
    + split; [done|]. intros _. apply contains_a_true in Ec as [b Hb].
      assert (b = t_root tb) as ->; [|done].
      apply (bij_fwd _ B0) in Hb. destruct (decide (b = t_root tb)) as [|Hne]; [done|]. exfalso.
      destruct (compute_matching_iter heqb _ _ _ ta tb ra rb PA PB m0 _ _ E0 Hb) as [_ Hbi].
      apply (Hk' b Hbi Hne). symmetry.
      eapply (compute_matching_kinds heqb hkind_eqb); try done.
      intros x y. apply hkind_eqb_eq.
    + split.
      * apply bijection_add; [done| |].
        -- done.
        -- apply contains_b_false. destruct (get_a m0 (t_root tb)) as [a|] eqn:Ea; [|done].
           rewrite (Hroot a eq_refl) in Ea. apply (bij_bwd _ B0), (bij_fwd _ B0) in Ea.
           apply contains_a_false in Ec. congruence.
      * intros _. by rewrite get_b_add, Nat.eqb_refl.
  - injection E as <-. split; [done|]. intros HH. apply hkind_eqb_eq in HH. congruence.
Qed.
Print Assumptions forced_body_match_bijection.

Lemma only_root_kind {H} (t : dtree H hkind attrs string) (k : hkind) :
  forallb (fun a => Nat.eqb a (t_root t) || negb (hkind_eqb (t_kind t a) k)) (t_iter t) = true ->
  forall a, a ∈ t_iter t -> a <> t_root t -> t_kind t a <> k.
Proof.
  intros Hf a Ha Hne Ek. rewrite forallb_forall in Hf.
  specialize (Hf a (proj1 (elem_of_list_In _ _) Ha)). apply hkind_eqb_eq in Ek. rewrite Ek in Hf.
  apply orb_true_iff in Hf as [Hf|Hf]; [by apply Nat.eqb_eq in Hf|done].
Qed.

Example forced_body_example : exists ra rb,
  presents ex_a ra /\ presents ex_b rb /\ no_collision phash_eqb ex_a ex_b /\
  (forall a, a ∈ t_iter ex_a -> a <> t_root ex_a -> t_kind ex_a a <> t_kind ex_b (t_root ex_b)) /\
  (forall b, b ∈ t_iter ex_b -> b <> t_root ex_b -> t_kind ex_b b <> t_kind ex_a (t_root ex_a)) /\
  html_matching phash_eqb ex_a ex_b = Val ex_m /\ get_b ex_m 0 = Some 2 /\ length (m_pairs ex_m) = 7.
Proof.
  destruct (left_presents [el "p" [tx "one"]; el_a "div" [ex_attr "id" "x"] [el "b" [tx "two"]; tx "three"];
   opaque_el [el "i" [tx "in"]]; el "i" [tx "gone"]]) as [ra PA].
  destruct (right_presents [el_a "div" [ex_attr "id" "y"] [tx "three"; el "b" [tx "two"]; el "u" []];
   opaque_el [el "i" [tx "changed"]]; el "p" [tx "one!"]]) as [rb PB].
  exists ra, rb. split; [exact PA|]. split; [exact PB|].
  split; [apply faithful_no_collision, ex_faithful|].
  split_and!.
  - apply only_root_kind. vm_compute. reflexivity.
  - apply only_root_kind. vm_compute. reflexivity.
  - vm_compute. reflexivity.
  - vm_compute. reflexivity.
  - vm_compute. reflexivity.
Qed.

(** ** C04 *)

Theorem matched_nodes_same_kind :
  forall {H K P T} (heqb : H -> H -> bool) (keqb : K -> K -> bool) (sim : P -> P -> ratio)
         (cfg : config) (ta tb : dtree H K P T) ra rb (m : matching) a b,
  presents ta ra -> presents tb rb ->
  no_collision heqb ta tb ->
  (forall x y, keqb x y = true -> x = y) ->
  compute_matching heqb keqb sim cfg ta tb = Val m ->
  (a, b) ∈ m_pairs m ->
  t_kind ta a = t_kind tb b.
Proof. intros H K P T heqb keqb sim cfg ta tb ra rb m a b PA PB. by eapply compute_matching_kinds. Qed.
Print Assumptions matched_nodes_same_kind.

(** The hypotheses hold of every pair of documents under a collision-free hash;
    the example above has seven pairs of four different kinds. *)
Example matched_kinds_example :
  map (fun p => (t_kind ex_a (fst p), t_kind ex_b (snd p))) (m_pairs ex_m) =
  [(KElem "div" NsHtml, KElem "div" NsHtml); (KText, KText); (KElem "b" NsHtml, KElem "b" NsHtml);
   (KText, KText); (KElem "div" NsHtml, KElem "div" NsHtml); (KText, KText);
   (KElem "body" NsHtml, KElem "body" NsHtml)].
Proof. vm_compute. reflexivity. Qed.

(** With colliding hashes the claim fails: under a hash that cannot tell
    anything apart, [<p><b></b></p>] against [<p>x</p>] pairs the [b] element with
    the text. *)
Definition unit_tree (a : arena dnode) (b : nat) : outcome (dtree unit hkind attrs string) :=
  mk_dtree (fun _ _ _ => tt) tt tdata_of a b.
Theorem colliding_hashes_refuted : exists ta tb m a b,
  unit_tree (doc_arena (mk_doc [] [el "b" []])) 2 = Val ta /\
  unit_tree (doc_arena (mk_doc [] [tx "x"])) 2 = Val tb /\
  compute_matching (fun _ _ => true) hkind_eqb props_sim diff_config ta tb = Val m /\
  (a, b) ∈ m_pairs m /\ t_kind ta a <> t_kind tb b.
Proof.
  eexists _, _, _, 3, 3.
  split; [vm_compute; reflexivity|]. split; [vm_compute; reflexivity|].
  split; [vm_compute; reflexivity|]. split; [simpl; right; left|vm_compute; discriminate].
Qed.
Print Assumptions colliding_hashes_refuted.

(** ** C05 *)

Theorem opaque_content_not_matched :
  forall {H K P T} (heqb : H -> H -> bool) (keqb : K -> K -> bool) (sim : P -> P -> ratio)
         (cfg : config) (ta tb : dtree H K P T) ra (m : matching) a b,
  presents ta ra ->
  compute_matching heqb keqb sim cfg ta tb = Val m ->
  (a, b) ∈ m_pairs m -> ~ inside_opaque ta ra a.
Proof.
  intros H K P T heqb keqb sim cfg ta tb ra m a b PA E Hin Ho.
  apply (inside_opaque_desc ta ra a PA) in Ho. revert Ho.
  by eapply compute_matching_not_opaque.
Qed.
Print Assumptions opaque_content_not_matched.

(** The old node an operation acts on, if any. *)
Definition acts_on_old {K T C} (op : edit_op K T C) (a : nat) : Prop :=
  match op with
  | UpdateProperties a' _ _ | Delete a' | Move a' _ _ _ | SetText a' _ _ => a' = a
  | Insert _ _ _ _ => False
  end.

Theorem opaque_content_not_edited :
  forall {H K P T C} teqb p_empty (p_diff : P -> P -> C) c_any c_len p_len
         (ta tb : dtree H K P T) ra (m : matching) op a,
  presents ta ra ->
  op ∈ generate_edit_script teqb p_empty p_diff c_any c_len p_len ta tb m ->
  acts_on_old op a -> ~ inside_opaque ta ra a.
Proof.
  intros H K P T C teqb p_empty p_diff c_any c_len p_len ta tb ra m op a PA Hop Ha Ho.
  apply (inside_opaque_desc ta ra a PA) in Ho. revert Ho.
  eapply script_old_not_opaque; [exact Hop|]. destruct op; simpl in *; try done; by f_equal.
Qed.
Print Assumptions opaque_content_not_edited.

(** In the example nodes 8 and 9 are inside the opaque element 7. *)
Example opaque_example :
  t_opaque ex_a 7 = true /\ t_desc ex_a 7 = [7; 8; 9] /\ get_b ex_m 7 = Some 8 /\
  get_b ex_m 8 = None /\ get_b ex_m 9 = None.
Proof. vm_compute. auto 10. Qed.

(** On the new side the corresponding claim is false: when an old plain [div]
    becomes opaque, its children are matched into the opaque content of the new
    one by the positional rule of pass 1. *)
Theorem new_opaque_content_matched_refuted : exists old new m a b rb,
  html_matching phash_eqb (left_tree old) (right_tree new) = Val m /\
  presents (right_tree new) rb /\ (a, b) ∈ m_pairs m /\ inside_opaque (right_tree new) rb b.
Proof.
  set (new := [el_a "div" [ex_attr "id" "a"; ex_attr opaque_attr ""] [el "p" []; tx "x"]]).
  exists [el_a "div" [ex_attr "id" "a"] [el "p" []; tx "y"]], new.
  destruct (right_presents new) as [rb PB].
  eexists _, 2, 4, rb. split; [vm_compute; reflexivity|]. split; [exact PB|].
  split; [simpl; right; left|]. apply (inside_opaque_desc _ rb _ PB).
  apply mem_true. vm_compute. reflexivity.
Qed.
Print Assumptions new_opaque_content_matched_refuted.

(** ** C06 *)

Definition inserts {K T C} (b : nat) (op : edit_op K T C) : bool :=
  match op with Insert b' _ _ _ => Nat.eqb b' b | _ => false end.

Theorem inserts_exact :
  forall {H K P T C} teqb p_empty (p_diff : P -> P -> C) c_any c_len p_len
         (ta tb : dtree H K P T) rb (m : matching),
  presents tb rb ->
  (t_parent tb (t_root tb) = None \/ get_a m (t_root tb) <> None) ->
  let script := generate_edit_script teqb p_empty p_diff c_any c_len p_len ta tb m in
  (forall b s k, subt s rb -> map rid (rsub s) !! k = Some b ->
     get_a m b = None -> ~ inside_opaque tb rb b ->
     List.filter (inserts b) script = [Insert b (rid s) k (t_kind tb b)]) /\
  (forall b p k kd, Insert b p k kd ∈ script ->
     get_a m b = None /\ ~ inside_opaque tb rb b /\ kd = t_kind tb b /\
     exists s, subt s rb /\ rid s = p /\ map rid (rsub s) !! k = Some b).
Proof.
  intros H K P T C teqb p_empty p_diff c_any c_len p_len ta tb rb m PB Hroot script. split.
  - intros b s k Hs Hk Hm Ho. rewrite list_lookup_fmap in Hk.
    destruct (rsub s !! k) as [c|] eqn:Ec; [|done]. injection Hk as <-.
    destruct (pr_parent tb rb PB s k c Hs Ec) as [Hp Hpos].
    rewrite <- Hpos. apply script_inserts_once; try done.
    + by eapply pr_iter_nodup.
    + apply (pr_iter_subt tb rb PB). exists c. split; [|done].
      eapply subt_trans; [|exact Hs]. eapply subt_step; [apply subt_refl|].
      by eapply elem_of_list_lookup_2.
    + intros Hin. by apply (inside_opaque_desc tb rb _ PB) in Hin.
  - intros b p k kd Hin. apply script_insert_inv in Hin as (Hb & Hm & Ho & Hp & -> & ->).
    split; [done|]. split; [by rewrite <- inside_opaque_desc|]. split; [done|].
    destruct (decide (b = t_root tb)) as [->|Hne].
    { destruct Hroot; congruence. }
    destruct (pr_nonroot tb rb PB b Hb Hne) as (p' & Hp' & Hpi & Hl).
    rewrite Hp in Hp'. injection Hp' as <-.
    apply (pr_iter_subt tb rb PB) in Hpi as (s & Hs & <-). exists s.
    rewrite <- (pr_children tb rb PB s Hs). done.
Qed.
Print Assumptions inserts_exact.

Example inserts_example :
  List.filter (inserts 7) ex_script = [Insert 7 3 2 (KElem "u" NsHtml)] /\
  List.filter (inserts 11) ex_script = [Insert 11 2 2 (KElem "p" NsHtml)] /\
  t_children ex_b 3 !! 2 = Some 7 /\ t_children ex_b 2 !! 2 = Some 11 /\
  get_a ex_m (t_root ex_b) <> None.
Proof. vm_compute. split_and!; try reflexivity. discriminate. Qed.

(** ** C07 *)

Definition deletes {K T C} (a : nat) (op : edit_op K T C) : bool :=
  match op with Delete a' => Nat.eqb a' a | _ => false end.

Theorem deletes_exact :
  forall {H K P T C} teqb p_empty (p_diff : P -> P -> C) c_any c_len p_len
         (ta tb : dtree H K P T) ra (m : matching),
  presents ta ra ->
  let script := generate_edit_script teqb p_empty p_diff c_any c_len p_len ta tb m in
  (forall a, a ∈ preorder ra -> get_b m a = None -> ~ inside_opaque ta ra a ->
     List.filter (deletes a) script = [Delete a]) /\
  (forall a, Delete a ∈ script -> a ∈ preorder ra /\ get_b m a = None /\ ~ inside_opaque ta ra a) /\
  (forall s x, subt s ra -> x ∈ preorder s -> x <> rid s ->
     Delete x ∈ script -> Delete (rid s) ∈ script -> before script (Delete x) (Delete (rid s))).
Proof.
  intros H K P T C teqb p_empty p_diff c_any c_len p_len ta tb ra m PA script. split_and!.
  - intros a Ha Hm Ho. apply script_deletes_once; try done.
    + rewrite (pr_post ta ra PA). apply postorder_nodup, PA.
    + rewrite (pr_post ta ra PA). by apply postorder_elem.
    + by rewrite (inside_opaque_desc ta ra).
  - intros a Hin. apply script_delete_inv in Hin as (Ha & Hm & Ho).
    rewrite (pr_post ta ra PA) in Ha. apply postorder_elem in Ha.
    split; [done|]. split; [done|]. by rewrite <- inside_opaque_desc.
  - intros s x Hs Hx Hne H1 H2. apply script_delete_order; [|done|done].
    rewrite (pr_post ta ra PA). by apply postorder_before.
Qed.
Print Assumptions deletes_exact.

Example deletes_example :
  List.filter (fun op => match op with Delete _ => true | _ => false end) ex_script =
    [Delete 1; Delete 11; Delete 10] /\ t_children ex_a 10 = [11] /\ get_b ex_m 10 = None.
Proof. vm_compute. auto. Qed.

(** ** C08 *)

Definition moves {K T C} (a : nat) (op : edit_op K T C) : bool :=
  match op with Move a' _ _ _ => Nat.eqb a' a | _ => false end.

Theorem moves_exact :
  forall {H K P T C} teqb p_empty (p_diff : P -> P -> C) c_any c_len p_len
         (ta tb : dtree H K P T) ra rb (m : matching) a b sa sb ka kb,
  presents ta ra -> presents tb rb -> bijection m -> (a, b) ∈ m_pairs m ->
  subt sa ra -> map rid (rsub sa) !! ka = Some a -> ~ inside_opaque ta ra a ->
  subt sb rb -> map rid (rsub sb) !! kb = Some b -> ~ inside_opaque tb rb b ->
  let script := generate_edit_script teqb p_empty p_diff c_any c_len p_len ta tb m in
  (get_b m (rid sa) = Some (rid sb) /\ ka = kb -> List.filter (moves a) script = []) /\
  (~ (get_b m (rid sa) = Some (rid sb) /\ ka = kb) ->
     List.filter (moves a) script = [Move a b (rid sb) kb]).
Proof.
  intros H K P T C teqb p_empty p_diff c_any c_len p_len ta tb ra rb m a b sa sb ka kb
    PA PB B Hin Hsa Hka Hoa Hsb Hkb Hob script.
  rewrite list_lookup_fmap in Hka, Hkb.
  destruct (rsub sa !! ka) as [ca|] eqn:Ea; [|done]. destruct (rsub sb !! kb) as [cb|] eqn:Eb; [|done].
  injection Hka as <-. injection Hkb as <-.
  destruct (pr_parent ta ra PA sa ka ca Hsa Ea) as [Hpa <-].
  destruct (pr_parent tb rb PB sb kb cb Hsb Eb) as [Hpb <-].
  apply script_moves_spec; try done.
  - apply B.
  - by rewrite (inside_opaque_desc ta ra).
  - by rewrite (inside_opaque_desc tb rb).
Qed.
Print Assumptions moves_exact.

(** Conversely every Move in the script is one of these. *)
Theorem moves_only_matched :
  forall {H K P T C} teqb p_empty (p_diff : P -> P -> C) c_any c_len p_len
         (ta tb : dtree H K P T) (m : matching) a b p k,
  Move a b p k ∈ generate_edit_script teqb p_empty p_diff c_any c_len p_len ta tb m ->
  (a, b) ∈ m_pairs m /\ t_parent tb b = Some p /\ t_position tb b = k.
Proof.
  intros H K P T C teqb p_empty p_diff c_any c_len p_len ta tb m a b p k Hin.
  apply script_move_inv in Hin as (? & _ & _ & ? & -> & _). done.
Qed.
Print Assumptions moves_only_matched.

(** Node 5 is matched and stays put (no Move); 6 and 4 swap places. *)
Example moves_example :
  get_b ex_m 5 = Some 6 /\ List.filter (moves 5) ex_script = [] /\
  List.filter (moves 6) ex_script = [Move 6 4 3 0] /\ List.filter (moves 4) ex_script = [Move 4 5 3 1] /\
  t_children ex_a 3 = [4; 6] /\ t_children ex_b 3 = [4; 5; 7].
Proof. vm_compute. auto 10. Qed.

(** ** C09 *)

Definition op_rank {K T C} (op : edit_op K T C) : nat :=
  match op with
  | UpdateProperties _ _ _ | SetText _ _ _ => 0
  | Insert _ _ _ _ => 1
  | Move _ _ _ _ => 2
  | Delete _ => 3
  end.

Theorem script_is_ordered :
  forall {H K P T C} teqb p_empty (p_diff : P -> P -> C) c_any c_len p_len
         (ta tb : dtree H K P T) rb (m : matching),
  presents tb rb ->
  let script := generate_edit_script teqb p_empty p_diff c_any c_len p_len ta tb m in
  (forall s x ps ks kds p k kd, subt s rb -> x ∈ preorder s -> x <> rid s ->
     Insert (rid s) ps ks kds ∈ script -> Insert x p k kd ∈ script ->
     before script (Insert (rid s) ps ks kds) (Insert x p k kd)) /\
  (forall x y, before script x y -> op_rank x <= op_rank y).
Proof.
  intros H K P T C teqb p_empty p_diff c_any c_len p_len ta tb rb m PB script. split.
  - intros s x ps ks kds p k kd Hs Hx Hne H1 H2. eapply script_insert_order; [|done|done].
    rewrite (pr_iter tb rb PB). by apply preorder_before.
  - intros x y (l1 & l2 & l3 & E). apply script_phases in E. destruct x, y; simpl in *; lia.
Qed.
Print Assumptions script_is_ordered.

Definition nest_a := left_tree [tx "t"].
Definition nest_b := right_tree [tx "t"; el "ul" [el "li" [el "b" []]]].
Example script_order_example :
  html_edit_script nest_a nest_b
    match html_matching phash_eqb nest_a nest_b with Val m => m | _ => m_empty end =
  [Insert 4 2 1 (KElem "ul" NsHtml); Insert 5 4 0 (KElem "li" NsHtml); Insert 6 5 0 (KElem "b" NsHtml)].
Proof. vm_compute. reflexivity. Qed.

(** ** C28 *)

(** [above a i x]: [i] is [x] or an ancestor of [x]. *)
Lemma preorder_above {D} (a : arena D) r x :
  wf a -> is_tree a r -> (x ∈ preorder r <-> above a (rid r) x).
Proof.
  intros W. revert x. induction r as [i rs IH] using rose_ind'. intros x Ht.
  pose proof Ht as Ht0. apply is_tree_eq in Ht as [Hc Hts]. cbn [rid preorder]. split.
  - intros Hin. apply elem_of_cons in Hin as [->|Hin]; [by apply above_refl|].
    apply elem_flat_map in Hin as (u & Hu & Hx). apply IH in Hx; [|done|by apply Hts].
    apply above_trans with (rid u); [done| |done].
    apply above_parent with i; [by apply above_refl|]. apply (wf_pc a W). rewrite Hc.
    by apply elem_of_list_fmap_1.
  - intros Hab. destruct (wf_chain a W x) as [l Hl]. revert Hab.
    induction Hl as [x Hx|x p l Hx Hl IHl]; intros Hab.
    + apply above_inv in Hab as [->|(p & Hp & _)]; [left|congruence].
    + apply above_inv in Hab as [->|(q & Hq & Hab)]; [left|].
      rewrite Hx in Hq. injection Hq as <-. specialize (IHl Hab). apply (wf_pc a W) in Hx.
      apply elem_of_cons in IHl as [->|Hin].
      * right. rewrite Hc in Hx. apply elem_of_list_fmap in Hx as (u & -> & Hu).
        apply elem_flat_map. exists u. split; [done|apply preorder_rid].
      * right. apply elem_flat_map in Hin as (u & Hu & Hp). apply elem_flat_map. exists u. split; [done|].
        apply IH in Hp; [|done|by apply Hts]. apply IH; [done|by apply Hts|].
        eapply above_parent; [exact Hp|]. by apply (wf_pc a W).
Qed.

Theorem post_order_correct : forall {D} (a : arena D) i,
  wf a -> i < length a ->
  exists l, post_order a i = Some l /\ NoDup l /\ (forall x, x ∈ l <-> above a i x) /\
    (forall p c, p ∈ l -> c ∈ children a p -> before l c p).
Proof.
  intros D a i W Hi. destruct (tree_exists a i W) as (r & <- & Ht).
  exists (postorder r). split; [by apply post_order_spec|].
  split; [apply postorder_nodup; by eapply is_tree_nodup|]. split.
  - intros x. rewrite postorder_elem. by apply preorder_above.
  - intros p c Hp Hc. apply postorder_elem, preorder_subt in Hp as (s & Hs & <-).
    rewrite (is_tree_children a s) in Hc by (by eapply is_tree_subt).
    apply elem_of_list_fmap in Hc as (u & -> & Hu).
    apply postorder_before; [done| |].
    + destruct s as [j us]. right. apply elem_flat_map. exists u. split; [done|apply preorder_rid].
    + intros E. destruct s as [j us]. assert (NoDup (preorder (Rose j us))) as ND.
      { eapply is_tree_nodup; [done|]. by eapply is_tree_subt. }
      simpl in ND. apply NoDup_cons in ND as [Hn _]. apply Hn. simpl in E. rewrite <- E.
      apply elem_flat_map. exists u. split; [done|apply preorder_rid].
Qed.
Print Assumptions post_order_correct.

Theorem pre_order_correct : forall {D} (a : arena D) i,
  wf a -> i < length a ->
  exists l, descendants a i = Some l /\ NoDup l /\ (forall x, x ∈ l <-> above a i x) /\
    (forall p c, p ∈ l -> c ∈ children a p -> before l p c).
Proof.
  intros D a i W Hi. destruct (tree_exists a i W) as (r & <- & Ht).
  exists (preorder r). split; [by apply descendants_spec|].
  split; [by eapply is_tree_nodup|]. split.
  - intros x. by apply preorder_above.
  - intros p c Hp Hc. apply preorder_subt in Hp as (s & Hs & <-).
    rewrite (is_tree_children a s) in Hc by (by eapply is_tree_subt).
    apply elem_of_list_fmap in Hc as (u & -> & Hu).
    apply preorder_before; [done| |].
    + destruct s as [j us]. right. apply elem_flat_map. exists u. split; [done|apply preorder_rid].
    + intros E. destruct s as [j us]. assert (NoDup (preorder (Rose j us))) as ND.
      { eapply is_tree_nodup; [done|]. by eapply is_tree_subt. }
      simpl in ND. apply NoDup_cons in ND as [Hn _]. apply Hn. simpl in E. rewrite <- E.
      apply elem_flat_map. exists u. split; [done|apply preorder_rid].
Qed.
Print Assumptions pre_order_correct.

Example traversal_example :
  wf (doc_arena ex_old) /\
  post_order (doc_arena ex_old) 2 = Some [6; 5; 9; 8; 10; 7; 12; 11; 2] /\
  descendants (doc_arena ex_old) 2 = Some [2; 5; 6; 7; 8; 9; 10; 11; 12].
Proof. split; [apply mk_doc_ok|]. vm_compute. auto. Qed.

(** ** C29, Dice part *)

Theorem dice_in_unit_interval :
  forall {H K P T} (ta tb : dtree H K P T) ra (m : matching) a b,
  presents ta ra -> a ∈ preorder ra -> bijection m ->
  0 <= fst (dice ta tb m a b) <= snd (dice ta tb m a b) /\ 0 < snd (dice ta tb m a b).
Proof.
  intros H K P T ta tb ra m a b PA Ha B.
  assert (NoDup (t_desc ta a)) as ND.
  { eapply pr_desc_nodup; [exact PA|]. by rewrite (pr_iter ta ra PA). }
  destruct (dice_common_le ta tb m a b B ND) as [H1 H2]. unfold dice.
  destruct (t_desc ta a) as [|x l], (t_desc tb b) as [|y k]; cbn [fst snd length] in *; lia.
Qed.
Print Assumptions dice_in_unit_interval.

(** The Dice coefficient is 1 exactly when the matching pairs the nodes of the
    two subtrees off completely, and 0 exactly when it pairs none of them. *)
Theorem dice_extremes :
  forall {H K P T} (ta tb : dtree H K P T) ra rb (m : matching) a b,
  presents ta ra -> presents tb rb -> a ∈ preorder ra -> b ∈ preorder rb -> bijection m ->
  (fst (dice ta tb m a b) = snd (dice ta tb m a b) <->
     (forall x, x ∈ t_desc ta a -> exists y, y ∈ t_desc tb b /\ (x, y) ∈ m_pairs m) /\
     (forall y, y ∈ t_desc tb b -> exists x, x ∈ t_desc ta a /\ (x, y) ∈ m_pairs m)) /\
  (fst (dice ta tb m a b) = 0 <->
     forall x y, x ∈ t_desc ta a -> y ∈ t_desc tb b -> (x, y) ∉ m_pairs m).
Proof.
  intros H K P T ta tb ra rb m a b PA PB Ha Hb B.
  assert (NoDup (t_desc ta a)) as NA.
  { eapply pr_desc_nodup; [exact PA|]. by rewrite (pr_iter ta ra PA). }
  assert (NoDup (t_desc tb b)) as NB.
  { eapply pr_desc_nodup; [exact PB|]. by rewrite (pr_iter tb rb PB). }
  destruct (dice_common_le ta tb m a b B NA) as [L1 L2].
  assert (a ∈ t_desc ta a) as HAa.
  { apply preorder_subt in Ha as (s & Hs & <-). rewrite (pr_desc _ _ PA s Hs). apply preorder_rid. }
  assert (dice ta tb m a b = (2 * dice_common ta tb m a b, length (t_desc ta a) + length (t_desc tb b))) as ->.
  { unfold dice. destruct (t_desc ta a); [by apply elem_of_nil in HAa|done]. }
  cbn [fst snd].
  set (f := fun x => match get_b m x with Some y => mem y (t_desc tb b) | None => false end) in *.
  assert (dice_common ta tb m a b = length (List.filter f (t_desc ta a))) as EC by done.
  assert (forall x, f x = true <-> exists y, y ∈ t_desc tb b /\ (x, y) ∈ m_pairs m) as HF.
  { intros x. unfold f. destruct (get_b m x) as [y|] eqn:Ey.
    - rewrite mem_true. split; [intros Hy; exists y; split; [done|by apply (bij_fwd m B)]|].
      intros (z & Hz & Hp). apply (bij_fwd m B) in Hp. congruence.
    - split; [done|]. intros (z & _ & Hp). apply (bij_fwd m B) in Hp. congruence. }
  set (k := omap (get_b m) (t_desc ta a)).
  assert (length k <= length (t_desc ta a)) as LK.
  { unfold k. clear. induction (t_desc ta a) as [|x l IH]; [done|]. cbn. destruct (get_b m x); cbn; lia. }
  assert (NoDup k) as NK.
  { unfold k. clear -B NA. induction NA as [|x l Hx NA IH]; [constructor|]. cbn.
    destruct (get_b m x) as [y|] eqn:Ey; [|done]. constructor; [|done]. intros Hy.
    apply elem_of_list_omap in Hy as (x' & Hx' & Ey'). apply (bij_fwd m B), (bij_bwd m B) in Ey, Ey'. congruence. }
  split; split.
  - intros E. assert (length (List.filter f (t_desc ta a)) = length (t_desc ta a)) as E1 by lia.
    assert (length (t_desc tb b) = length (t_desc ta a)) as E2 by lia.
    assert (forall x, x ∈ t_desc ta a -> f x = true) as HA.
    { clear -E1. induction (t_desc ta a) as [|x l IH]; [intros y Hy; by apply elem_of_nil in Hy|]. cbn in E1.
      pose proof (AttrProofs.filter_length_le f l). destruct (f x) eqn:Ef; cbn in E1; [|lia].
      intros y Hy. apply elem_of_cons in Hy as [->|Hy]; [done|]. apply IH; [lia|done]. }
    split; [intros x Hx; by apply HF, HA|].
    assert (length k = length (t_desc ta a)) as EK.
    { unfold k. clear -HA. induction (t_desc ta a) as [|x l IH]; [done|]. cbn.
      pose proof (HA x ltac:(left)) as Hf. unfold f in Hf. destruct (get_b m x); [|done]. cbn. f_equal. apply IH.
      intros y Hy. apply HA. by right. }
    intros y Hy. assert (y ∈ k) as Hk.
    { apply (AttrProofs.nodup_incl_length_perm (t_desc tb b) k); try done; [|lia].
      intros z Hz. apply elem_of_list_omap in Hz as (x & Hx & Ez). pose proof (HA x Hx) as Hf. unfold f in Hf.
      rewrite Ez in Hf. by apply mem_true. }
    apply elem_of_list_omap in Hk as (x & Hx & Ey). exists x. split; [done|]. by apply (bij_fwd m B).
  - intros [HA HB].
    assert (List.filter f (t_desc ta a) = t_desc ta a) as E1 by (apply AttrProofs.filter_all; intros x Hx; by apply HF, HA).
    assert (length (t_desc tb b) <= length k) as E2.
    { apply NoDup_incl_length; [by apply NoDup_ListNoDup|]. intros y Hy. apply elem_of_list_In in Hy.
      apply elem_of_list_In, elem_of_list_omap. destruct (HB y Hy) as (x & Hx & Hp). exists x. split; [done|].
      by apply (bij_fwd m B). }
    rewrite E1 in EC. lia.
  - intros E x y Hx Hy Hp. assert (x ∈ List.filter f (t_desc ta a)) as Hin.
    { apply lfilter_elem. split; [done|]. apply HF. eauto. }
    destruct (List.filter f (t_desc ta a)); [by apply elem_of_nil in Hin|]. cbn in EC. lia.
  - intros HN. destruct (List.filter f (t_desc ta a)) as [|x l] eqn:El; [cbn in EC; lia|].
    assert (x ∈ List.filter f (t_desc ta a)) as Hin by (rewrite El; left).
    apply lfilter_elem in Hin as [Hx Hf]. apply HF in Hf as (y & Hy & Hp). destruct (HN x y Hx Hy Hp).
Qed.
Print Assumptions dice_extremes.

Example dice_example :
  dice ex_a ex_b ex_m 3 3 = (8, 9) /\ dice ex_a ex_b ex_m 10 11 = (0, 4) /\
  dice ex_a ex_b ex_m 4 5 = (4, 4).
Proof. vm_compute. auto. Qed.

(** ** C32, edit operations *)

Lemma postorder_perm r : Permutation (postorder r) (preorder r).
Proof.
  induction r as [i rs IH] using rose_ind'. cbn [postorder preorder].
  rewrite Permutation_app_comm. simpl. constructor.
  induction rs as [|u rs IHr]; simpl; [done|].
  rewrite IH by left. rewrite IHr; [done|]. intros; apply IH; by right.
Qed.

Theorem edit_script_size :
  forall {H K P T C} teqb p_empty (p_diff : P -> P -> C) c_any c_len p_len
         (ta tb : dtree H K P T) ra rb (m : matching),
  presents ta ra -> presents tb rb ->
  length (generate_edit_script teqb p_empty p_diff c_any c_len p_len ta tb m) <=
    3 * length (m_pairs m)
    + length (List.filter (fun b => match get_a m b with Some _ => false | None => true end) (preorder rb))
    + length (List.filter (fun a => match get_b m a with Some _ => false | None => true end) (preorder ra)).
Proof.
  intros H K P T C teqb p_empty p_diff c_any c_len p_len ta tb ra rb m PA PB.
  pose proof (script_length teqb p_empty p_diff c_any c_len p_len ta tb m) as L.
  rewrite (pr_iter tb rb PB), (pr_post ta ra PA) in L.
  assert (forall (f : nat -> bool) r, length (List.filter f (postorder r)) = length (List.filter f (preorder r))) as Hperm.
  { intros f r. apply Permutation_length.
    assert (Permutation (postorder r) (preorder r)) as HP by apply postorder_perm.
    clear -HP. induction HP; simpl.
    - constructor.
    - destruct (f x); [by constructor|done].
    - destruct (f x), (f y); try done. by constructor.
    - by etransitivity. }
  rewrite Hperm in L.
  assert (forall l, List.filter (fun b => negb (contains_b m b)) l =
                    List.filter (fun b => match get_a m b with Some _ => false | None => true end) l) as E1.
  { intros l. apply filter_ext. intros x. unfold contains_b. by destruct (get_a m x). }
  assert (forall l, List.filter (fun b => negb (contains_a m b)) l =
                    List.filter (fun b => match get_b m b with Some _ => false | None => true end) l) as E2.
  { intros l. apply filter_ext. intros x. unfold contains_a. by destruct (get_b m x). }
  rewrite E1, E2 in L. done.
Qed.
Print Assumptions edit_script_size.

Example edit_script_size_example :
  length ex_script = 12 /\ length (m_pairs ex_m) = 7.
Proof. vm_compute. auto. Qed.
