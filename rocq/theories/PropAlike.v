(** C75: patches act on what a page shows.

    A document is an arena that may have any history: nodes may have any names
    (indices), and the arena may contain any number of nodes that are not part of
    the page.  Two documents that show the same page answer any list of patches,
    made by [diff] or not, in the same way: the same result or error, at the same
    patch, and afterwards they show the same page again. *)
From Verif Require Import Base Arena Dom Browser ArenaProofs ArenaOps TreeProofs DomTree IsoProofs
  RoundProofs MirrorProofs Wire LiveClient PropApply Instances InstanceProofs WfCheck.
Local Open Scope string_scope.

(** The document is a tree, and it is the tree [h]. *)
Record page_of (d : document) (h : htree) : Prop := {
  po_wf : wf (doc_arena d);
  po_root : parent (doc_arena d) (doc_root d) = None;
  po_holds : holds (doc_arena d) h (doc_root d)
}.

(** ** HTML *)

Lemma iso_ser R a b f : iso R a b -> forall raw i j, R i j -> ser_f f a raw i = ser_f f b raw j.
Proof.
  intros I. induction f as [|f IH]; intros raw i j Hij; [done|]. cbn [ser_f].
  rewrite (is_kind _ _ _ I i j Hij). destruct (node_kind b j) as [[| t l| |]|]; try done.
  destruct (is_void_element t); [done|].
  pose proof (is_children _ _ _ I i j Hij) as HC.
  match goal with |- match ?x with _ => _ end = match ?y with _ => _ end => assert (x = y) as -> end; [|done].
  induction HC as [|x y l1 l2 Hxy HC IHC]; [done|]. rewrite (IH _ x y Hxy). rewrite IHC. done.
Qed.

Lemma ser_more a f : forall f' raw i s, f <= f' -> ser_f f a raw i = Some s -> ser_f f' a raw i = Some s.
Proof.
  induction f as [|f IH]; intros f' raw i s Hle; [done|]. destruct f' as [|f']; [lia|]. cbn [ser_f].
  destruct (node_kind a i) as [[| t l| |]|]; try done.
  destruct (is_void_element t); [done|].
  match goal with |- match ?x with _ => _ end = _ -> match ?y with _ => _ end = _ =>
    assert (forall u, x = Some u -> y = Some u) as HG end.
  { induction (children a i) as [|c cs IHc]; [done|]. intros u.
    destruct (ser_f f a (is_raw_text_element t) c) as [x|] eqn:Ex; [|done].
    rewrite (IH f' _ _ _ (le_S_n _ _ Hle) Ex).
    match goal with |- match ?g with _ => _ end = _ -> _ => destruct g as [y|] eqn:Ey end; [|done].
    by rewrite (IHc y eq_refl). }
  match goal with |- match ?x with _ => _ end = _ -> _ => destruct x as [u|] eqn:Eu end; [|done].
  by rewrite (HG u eq_refl).
Qed.

Lemma iso_serialize R a b i j s s' : iso R a b -> R i j ->
  serialize_node a i = Some s -> serialize_node b j = Some s' -> s = s'.
Proof.
  unfold serialize_node. intros I Hij Ha Hb.
  apply (ser_more a _ (tree_fuel a + tree_fuel b)) in Ha; [|lia].
  apply (ser_more b _ (tree_fuel a + tree_fuel b)) in Hb; [|lia].
  rewrite (iso_ser R a b _ I false i j Hij) in Ha. congruence.
Qed.

Lemma iso_find R a b t l l' : iso R a b -> Forall2 R l l' ->
  option_Forall2 R (find (has_tag a t) l) (find (has_tag b t) l').
Proof.
  intros I Hl. induction Hl as [|x y l l' Hxy Hl IH]; cbn; [constructor|].
  unfold has_tag at 1 3. rewrite (is_kind _ _ _ I x y Hxy).
  destruct (node_kind b y) as [[| t' ? | |]|]; try done. destruct (String.eqb t' t); [by constructor|done].
Qed.

(** ** Native *)

Lemma same_root a b i j : same_path a b i j i j.
Proof. by exists []. Qed.

Lemma iso_body R d d' : iso R (doc_arena d) (doc_arena d') -> R (doc_root d) (doc_root d') ->
  option_Forall2 R (body d) (body d').
Proof. intros I Hr. apply (iso_find R); [done|]. by apply (is_children _ _ _ I). Qed.

Lemma iso_body_html R d d' s s' : iso R (doc_arena d) (doc_arena d') -> R (doc_root d) (doc_root d') ->
  to_body_html d = Some s -> to_body_html d' = Some s' -> s = s'.
Proof.
  intros I Hr. unfold to_body_html. destruct (iso_body R d d' I Hr) as [b b' Hb|]; [|congruence].
  unfold serialize_inner_html. pose proof (is_children _ _ _ I b b' Hb) as HC. revert s s'.
  generalize (tree_fuel (doc_arena d)), (tree_fuel (doc_arena d')). intros f f'.
  induction HC as [|x y l l' Hxy HC IH]; intros s s'; cbn [ser_list]; [congruence|].
  destruct (ser_f f (doc_arena d) false x) as [u|] eqn:Eu; [|done].
  destruct (ser_list f (doc_arena d) l) as [v|]; [|done]. intros [= <-].
  destruct (ser_f f' (doc_arena d') false y) as [u'|] eqn:Eu'; [|done].
  destruct (ser_list f' (doc_arena d') l') as [v'|]; [|done]. intros [= <-]. f_equal; [|by apply IH].
  apply (ser_more _ _ (f + f')) in Eu; [|lia]. apply (ser_more _ _ (f + f')) in Eu'; [|lia].
  rewrite (iso_ser R _ _ _ I false x y Hxy) in Eu. congruence.
Qed.

(** What two documents have in common after the same patches. *)
Definition alike (d d' : document) : Prop :=
  (forall h, holds (doc_arena d) h (doc_root d) <-> holds (doc_arena d') h (doc_root d')) /\
  (forall s s', to_html_without_doctype d = Some s -> to_html_without_doctype d' = Some s' -> s = s') /\
  (forall s s', to_body_html d = Some s -> to_body_html d' = Some s' -> s = s').

Lemma iso_alike R d d' : iso R (doc_arena d) (doc_arena d') -> R (doc_root d) (doc_root d') -> alike d d'.
Proof.
  intros I Hr. split_and!.
  - intros h. split; [by apply (iso_holds R)|]. by apply (iso_holds _ _ _ (iso_flip _ _ _ I)).
  - intros s s'. by apply (iso_serialize R).
  - intros s s'. by apply (iso_body_html R).
Qed.

Lemma ensure_body_rel R d d' : iso R (doc_arena d) (doc_arena d') -> R (doc_root d) (doc_root d') ->
  orel (fun x y => exists R', sub R R' /\ iso R' (doc_arena (fst x)) (doc_arena (fst y)) /\ R' (snd x) (snd y) /\
          R' (doc_root (fst x)) (doc_root (fst y)))
    (ensure_body d) (ensure_body d').
Proof.
  intros I Hr. unfold ensure_body. destruct (iso_body R d d' I Hr) as [b b' Hb|].
  - cbn. exists R. split; [apply sub_refl|done].
  - pose proof (iso_new R _ _ (elem "body" [] NsHtml) I) as I1. unfold new_node in *. cbn [fst] in I1.
    eapply orel_bind; [apply (iso_append _ _ _ (doc_root d) (doc_root d') _ _ I1); [by left|by right]|].
    intros x y I2. cbn. exists (radd R (length (doc_arena d)) (length (doc_arena d'))).
    split; [apply radd_sub|]. split; [done|]. split; [by right|by left].
Qed.

(** The nodes of the page, before and after the patches. *)
Lemma patched_iso parse R (d d' : document) ps :
  iso R (doc_arena d) (doc_arena d') -> R (doc_root d) (doc_root d') ->
  let x := apply_patches parse d ps in let y := apply_patches parse d' ps in
  snd x = snd y /\ exists R', sub R R' /\ iso R' (doc_arena (fst x)) (doc_arena (fst y)) /\ R' (doc_root (fst x)) (doc_root (fst y)).
Proof.
  intros I Hr. cbn zeta.
  unfold apply_patches. destruct ps as [|p ps]; [split; [done|]; exists R; split; [apply sub_refl|done]|].
  unfold init_patch_slots. pose proof (ensure_body_rel R d d' I Hr) as HE.
  destruct (ensure_body d) as [[e b]|e| |], (ensure_body d') as [[e' b']|e'| |]; cbn in HE; try done; cbn [obind].
  2:{ subst. split; [done|]. exists R. split; [apply sub_refl|done]. }
  2-3: split; [done|]; exists R; split; [apply sub_refl|done].
  destruct HE as (R1 & HS & I1 & Hb & Hr1).
  match goal with |- context [apply_all parse (doc_arena e, ?s1) (p :: ps)] =>
    match goal with |- context [apply_all parse (doc_arena e', ?s2) (p :: ps)] =>
      assert (strel R1 (doc_arena e, s1) (doc_arena e', s2)) as S1 end end.
  { constructor; [done|]. intros k. cbn. destruct k; by constructor. }
  destruct (apply_all_rel parse (p :: ps) R1 _ _ S1) as [E (R2 & HS2 & S2)].
  destruct (apply_all parse _ (p :: ps)) as [[x sl] r].
  destruct (apply_all parse _ (p :: ps)) as [[x' sl'] r']. cbn [fst snd] in *.
  split; [done|]. exists R2. split; [|split; [apply S2|by apply HS2]]. intros i j Hij. by apply HS2, HS.
Qed.

Theorem patches_see_the_page : forall parse (d d' : document) h ps,
  page_of d h -> page_of d' h ->
  snd (apply_patches parse d ps) = snd (apply_patches parse d' ps) /\
  alike (fst (apply_patches parse d ps)) (fst (apply_patches parse d' ps)).
Proof.
  intros parse d d' h ps [W P H] [W' P' H'].
  pose proof (iso_same_tree _ _ h _ _ W W' H H' P P') as I.
  destruct (patched_iso parse _ d d' ps I (same_root _ _ _ _)) as [E (R & _ & I' & Hr)].
  split; [done|]. by apply (iso_alike R).
Qed.
Print Assumptions patches_see_the_page.

(** A tree has HTML. *)
Lemma rose_ser (a : arena dnode) r : is_tree a r -> forall f raw, rheight r < f -> exists s, ser_f f a raw (rid r) = Some s.
Proof.
  induction r as [i ts IH] using rose_ind'. intros Ht f raw Hf. destruct f as [|f]; [lia|]. cbn [rid ser_f].
  destruct (node_kind a i) as [[| t l| |]|]; eauto. destruct (is_void_element t); [eauto|].
  apply is_tree_eq in Ht as [-> Ht].
  assert (forall u, u ∈ ts -> rheight u < f) as Hh.
  { intros u Hu. pose proof (rheight_child (Rose i ts) u Hu). lia. } clear Hf.
  match goal with |- exists s, match ?x with _ => _ end = _ => assert (exists v, x = Some v) as [v ->] end; [|eauto].
  induction ts as [|u ts IHts]; cbn -[rid is_raw_text_element]; [eauto|].
  destruct (IH u (elem_of_list_here _ _) (Ht u (elem_of_list_here _ _)) f (is_raw_text_element t)
    (Hh u (elem_of_list_here _ _))) as [v ->].
  destruct IHts as [w ->]; [| |intros; apply Hh; by right|eauto].
  - intros t' Ht'. apply IH. by right.
  - intros t' Ht'. apply Ht. by right.
Qed.

Lemma wf_ser a i : wf a -> i < length a -> exists s, serialize_node a i = Some s.
Proof.
  intros W Hi. destruct (tree_exists a i W) as (r & <- & Ht). apply rose_ser; [done|].
  pose proof (rheight_lt_size r). pose proof (is_tree_size a r W Ht Hi). unfold tree_fuel. lia.
Qed.

(** Lists without Move leave a tree (C19), so the documents have the same HTML. *)
Corollary patches_see_the_page_html : forall parse (d d' : document) h ps,
  page_of d h -> page_of d' h -> (forall p, p ∈ ps -> ~ is_move_patch p) ->
  exists s, to_html_without_doctype (fst (apply_patches parse d ps)) = Some s /\
    to_html_without_doctype (fst (apply_patches parse d' ps)) = Some s.
Proof.
  intros parse d d' h ps P P' NM. destruct (patches_see_the_page parse d d' h ps P P') as (_ & _ & HS & _).
  assert (forall d, page_of d h -> exists s, to_html_without_doctype (fst (apply_patches parse d ps)) = Some s) as HX.
  { clear - NM. intros d [W _ H]. destruct (apply_patches parse d ps) as [e r] eqn:E.
    destruct (application_keeps_tree parse d e ps r NM W (holds_lt _ _ _ H) E) as (W' & L & _). by apply wf_ser. }
  destruct (HX d P) as [s E]. destruct (HX d' P') as [s' E']. exists s. split; [done|].
  by rewrite (HS s s' E E').
Qed.
Print Assumptions patches_see_the_page_html.

(** ** In a browser *)

Theorem browser_sees_the_page : forall valid_elem valid_attr parse_template (C C' : arena dnode) (r r' : nat) h q cb cb' ps,
  wf C -> wf C' -> parent C r = None -> parent C' r' = None -> holds C h r -> holds C' h r' ->
  navigate C r q = Val cb -> navigate C' r' q = Val cb' ->
  let x := b_apply_all valid_elem valid_attr parse_template cb (C, []) ps in
  let y := b_apply_all valid_elem valid_attr parse_template cb' (C', []) ps in
  snd x = snd y /\
  (forall h', holds (fst (fst x)) h' r <-> holds (fst (fst y)) h' r') /\
  (forall s s', serialize_node (fst (fst x)) r = Some s -> serialize_node (fst (fst y)) r' = Some s' -> s = s').
Proof.
  intros ve va pt C C' r r' h q cb cb' ps W W' P P' H H' N N' x y.
  pose proof (iso_same_tree _ _ h _ _ W W' H H' P P') as I.
  set (R := same_path _ _ _ _) in I. assert (R r r') as Hr by apply same_root.
  assert (strel R (C, []) (C', [])) as S1. { constructor; [done|]. intros k. constructor. }
  destruct (b_apply_all_rel ve va pt cb cb' ps R (C, []) (C', []) S1) as [E (R2 & HS2 & S2)]; [by exists q|].
  fold x in E, S2. fold y in E, S2. destruct S2 as [I2 _].
  split; [done|]. split.
  - intros h'. split; [by apply (iso_holds R2 _ _ I2); apply HS2|].
    apply (iso_holds _ _ _ (iso_flip _ _ _ I2)). by apply HS2.
  - intros s s'. apply (iso_serialize R2 _ _ _ _ s s' I2). by apply HS2.
Qed.
Print Assumptions browser_sees_the_page.

(** Two tabs that show the same page and handle the same events, whatever the
    events contain; a reload gives both the same page.  The mount point is the
    body, or what a selector finds, provided that it finds elements by what the
    page shows. *)
Definition fair (query_selector : document -> string -> option (option nat)) (selector : string) : Prop :=
  forall R d d', iso R (doc_arena d) (doc_arena d') -> R (doc_root d) (doc_root d') ->
    option_Forall2 (option_Forall2 R) (query_selector d selector) (query_selector d' selector).

Definition same_page (d d' : document) : Prop :=
  exists R, iso R (doc_arena d) (doc_arena d') /\ R (doc_root d) (doc_root d').

Lemma pages_same d d' h : page_of d h -> page_of d' h -> same_page d d'.
Proof. intros [W P H] [W' P' H']. eexists. split; [by eapply iso_same_tree|]. apply same_root. Qed.

Lemma same_alike d d' : same_page d d' -> alike d d'.
Proof. intros (R & I & Hr). by eapply iso_alike. Qed.

Section Tabs.
  Variables valid_elem valid_attr : string -> bool.
  Variable parse_template : string -> list htree.
  Variable query_selector : document -> string -> option (option nat).
  Variable selector : string.
  Hypothesis FAIR : fair query_selector selector.
  Local Notation handle := (handle_event valid_elem valid_attr parse_template query_selector selector).

  Lemma resolve_rel R d d' : iso R (doc_arena d) (doc_arena d') -> R (doc_root d) (doc_root d') ->
    orel R (resolve_mount_point query_selector d selector) (resolve_mount_point query_selector d' selector).
  Proof using FAIR.
    intros I Hr. unfold resolve_mount_point. destruct (String.eqb selector "body").
    - by destruct (iso_body R d d' I Hr).
    - by destruct (FAIR R d d' I Hr) as [o o' Ho|]; [destruct Ho|].
  Qed.

  Theorem event_sees_the_page : forall fresh fresh' d d' e,
    same_page fresh fresh' -> same_page d d' ->
    snd (handle fresh d e) = snd (handle fresh' d' e) /\ same_page (fst (handle fresh d e)) (fst (handle fresh' d' e)).
  Proof using FAIR.
    intros fresh fresh' d d' e SF (R & I & Hr). destruct e as [|route blob|route]; cbn [handle_event]; [by split| |by split].
    unfold apply_patches_postcard_on. destruct (from_blob blob) as [ps|]; cbn; [|by split; [|exists R]].
    unfold apply_patches_on. pose proof (resolve_rel R d d' I Hr) as HR.
    destruct (resolve_mount_point query_selector d selector) as [cb|er| |],
             (resolve_mount_point query_selector d' selector) as [cb'|er'| |]; cbn in HR; try done; cbn;
      [|subst; by split; [|exists R]|by split; [|exists R]|by split; [|exists R]].
    assert (strel R (doc_arena d, []) (doc_arena d', [])) as S1. { constructor; [done|]. intros k. constructor. }
    destruct (b_apply_all_rel valid_elem valid_attr parse_template cb cb' ps R _ _ S1 HR) as [E (R2 & HS2 & S2)].
    unfold slots in *.
    destruct (b_apply_all _ _ _ cb _ ps) as [[x sl] r]. destruct (b_apply_all _ _ _ cb' _ ps) as [[x' sl'] r'].
    cbn [fst snd] in *. subst r'. split; [done|]. exists R2. split; [apply S2|by apply HS2].
  Qed.

  (** [es]: the events, with what the first and the second tab would load. *)
  Corollary tabs_agree : forall (es : list (wire_event * document * document)) d d' h,
    page_of d h -> page_of d' h ->
    (forall e f f', (e, f, f') ∈ es -> exists g, page_of f g /\ page_of f' g) ->
    alike (fold_left (fun d '(e, f, _) => fst (handle f d e)) es d)
          (fold_left (fun d' '(e, _, f') => fst (handle f' d' e)) es d').
  Proof using FAIR.
    intros es d d' h P P' HF. apply same_alike. pose proof (pages_same d d' h P P') as HS. clear P P'.
    revert d d' HS. induction es as [|[[e f] f'] es IH]; intros d d' HS; [done|]. cbn [fold_left].
    apply IH; [intros e1 g1 g2 Hin; apply (HF e1 g1 g2); by right|].
    destruct (HF e f f') as (g & G & G'); [left|].
    apply event_sees_the_page; [by eapply pages_same|done].
  Qed.
End Tabs.
Print Assumptions event_sees_the_page.
Print Assumptions tabs_agree.

(** ** Example *)

(** A page as it was loaded, and the same page after patches: [b] is still in the
    arena, the nodes are in another order. *)
Definition ex_loaded : document := mk_doc [] [tx "a"; el "p" [tx "x"]].
Definition ex_patched : document :=
  fst (apply_patches no_parser (mk_doc [] [tx "z"; el "b" []])
    [PSetText [0; 0] "a"; PInsertElement [0; 1] "p" [] [ICText "x"] (Some 1)]).
Definition ex_page : htree :=
  HElem "html" NsHtml [] [el "head" []; el "body" [tx "a"; el "p" [tx "x"]]].
Definition ex_list : list patch :=
  [PInsertText [0; 3] "new" None; PMove [0; 1; 0] [0; 0] (Some 4); PSetText [4] "gone"; PRemove [0; 7]; PSetText [0; 0] "n"].

Lemma ex_loaded_page : page_of ex_loaded ex_page.
Proof. constructor; [apply wf_check_sound; by vm_compute|by vm_compute|by vm_compute]. Qed.
Lemma ex_patched_page : page_of ex_patched ex_page.
Proof. constructor; [apply wf_check_sound; by vm_compute|by vm_compute|by vm_compute]. Qed.

(** A selector that looks for a tag below the root. *)
Definition ex_query (d : document) (s : string) : option (option nat) :=
  Some (find (has_tag (doc_arena d) s) (children (doc_arena d) (doc_root d))).
Lemma ex_query_fair s : fair ex_query s.
Proof. intros R d d' I Hr. constructor. apply (iso_find R); [done|]. by apply (is_children _ _ _ I). Qed.

Example alike_example :
  doc_arena ex_loaded <> doc_arena ex_patched /\
  snd (apply_patches no_parser ex_loaded ex_list) = Fail (PathOutOfBounds 7) /\
  snd (apply_patches no_parser ex_patched ex_list) = Fail (PathOutOfBounds 7) /\
  to_body_html (fst (apply_patches no_parser ex_loaded ex_list)) = Some "x<p></p>new" /\
  to_body_html (fst (apply_patches no_parser ex_patched ex_list)) = Some "x<p></p>new" /\
  (let all := fun _ : string => true in
   let tab d := fst (handle_event all all (fun _ => []) ex_query "head" ex_loaded d
                       (WPatches "/" (to_blob [PInsertText [0; 0] "t" None]))) in
   to_html_without_doctype (tab ex_loaded) = to_html_without_doctype (tab ex_patched) /\
   to_html_without_doctype (tab ex_loaded) =
     Some "<html><head>t</head><body>a<p>x</p></body></html>").
Proof. split; [by vm_compute|]. vm_compute. done. Qed.
