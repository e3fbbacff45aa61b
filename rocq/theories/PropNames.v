(** C85: the filter of names in the fuzz targets: which patches it lets through, what
    a browser does with them, and how its idea of a name differs from the DOM's. *)
From Coq Require Import NArith.
From Verif Require Import Base Arena Matching Chawathe Dom HtmlDiff Browser Fuzz Stem Inputs Names DomTree.
Local Open Scope string_scope.

(** ** Patches *)

(** The tags and the attribute names in a content, at any depth. *)
Inductive has_tag : icontent -> string -> Prop :=
| tag_here t l cs : has_tag (ICElem t l cs) t
| tag_below t l cs c x : c ∈ cs -> has_tag c x -> has_tag (ICElem t l cs) x.
Inductive has_attr : icontent -> qname -> Prop :=
| attr_here t l cs q v : (q, v) ∈ l -> has_attr (ICElem t l cs) q
| attr_below t l cs c q : c ∈ cs -> has_attr c q -> has_attr (ICElem t l cs) q.

(** The tags and attribute names that applying a patch hands to the DOM. *)
Inductive uses_tag : patch -> string -> Prop :=
| uses_tag_insert at_ t l cs slot x : has_tag (ICElem t l cs) x -> uses_tag (PInsertElement at_ t l cs slot) x.
Inductive uses_attr : patch -> qname -> Prop :=
| uses_attr_insert at_ t l cs slot q : has_attr (ICElem t l cs) q -> uses_attr (PInsertElement at_ t l cs slot) q
| uses_attr_set p q v : uses_attr (PSetAttribute p q v) q
| uses_attr_remove p q : uses_attr (PRemoveAttribute p q) q
| uses_attr_props p l q v : mkPC (PAttr q) v ∈ l -> uses_attr (PUpdateProps p l) q.

Section Filter.
  Variables van vtn : string -> bool.

  Lemma names_ok_all l : names_ok van l = true <-> forall q v, (q, v) ∈ l -> van (q_local q) = true.
  Proof using Type.
    unfold names_ok. rewrite forallb_forall. split.
    - intros H q v Hi. apply elem_of_list_In in Hi. by apply (H (q, v)).
    - intros H [q v] Hi. apply elem_of_list_In in Hi. cbn. eauto.
  Qed.

  Lemma content_ok_all c : content_ok van vtn c = true <->
    (forall t, has_tag c t -> vtn t = true) /\ (forall q, has_attr c q -> van (q_local q) = true).
  Proof using Type.
    induction c as [s|s|t l cs IH] using icontent_ind'; cbn [content_ok].
    1,2: split; [intros _; split; intros x Hx; inversion Hx|done].
    rewrite !andb_true_iff, names_ok_all, forallb_forall. split.
    - intros [[Ht Hl] Hc]. split.
      + intros x Hx. inversion Hx as [|? ? ? c ? Hi Hh]; subst; [done|].
        apply (IH c Hi); [|done]. apply Hc. by apply elem_of_list_In.
      + intros q Hq. inversion Hq as [? ? ? ? v Hi|? ? ? c ? Hi Hh]; subst; [eauto|].
        apply (IH c Hi); [|done]. apply Hc. by apply elem_of_list_In.
    - intros [Ht Hq]. split; [split|].
      + apply Ht. constructor.
      + intros q v Hi. apply Hq. by econstructor.
      + intros c Hi. apply elem_of_list_In in Hi. apply (IH c Hi).
        split; intros; [apply Ht|apply Hq]; by econstructor.
  Qed.

  (** The filter lets patches through exactly if it likes every tag and the local
      part of every attribute name that they hand to the DOM. *)
  Theorem filter_exact ps : patches_valid van vtn ps = true <->
    (forall p t, p ∈ ps -> uses_tag p t -> vtn t = true) /\
    (forall p q, p ∈ ps -> uses_attr p q -> van (q_local q) = true).
  Proof using Type.
    unfold patches_valid. rewrite forallb_forall.
    assert (forall p, patch_ok van vtn p = true <->
      (forall t, uses_tag p t -> vtn t = true) /\ (forall q, uses_attr p q -> van (q_local q) = true)) as HP.
    { intros p. destruct p as [at_ t l cs slot|at_ s slot|at_ s slot|q|q s|q n v|q n|f g slot|q l|q s]; cbn [patch_ok].
      1: { change (content_ok van vtn (ICElem t l cs) = true <->
             (forall x, uses_tag (PInsertElement at_ t l cs slot) x -> vtn x = true) /\
             (forall x, uses_attr (PInsertElement at_ t l cs slot) x -> van (q_local x) = true)).
           rewrite content_ok_all. split; intros [H1 H2]; split.
           - intros x Hx. inversion Hx; subst. eauto.
           - intros x Hx. inversion Hx; subst. eauto.
           - intros x Hx. apply H1. by constructor.
           - intros x Hx. apply H2. by constructor. }
      all: try (split; [intros _; split; intros x Hx; inversion Hx|done]).
      - split; [intros H; split; intros x Hx; inversion Hx; by subst|]. intros [_ H]. apply H. constructor.
      - split; [intros H; split; intros x Hx; inversion Hx; by subst|]. intros [_ H]. apply H. constructor.
      - rewrite forallb_forall. split.
        + intros H. split; intros x Hx; inversion Hx; subst.
          match goal with Hi : mkPC _ _ ∈ _ |- _ => apply elem_of_list_In in Hi; exact (H _ Hi) end.
        + intros [_ H] [k v] Hi. apply elem_of_list_In in Hi. destruct k as [|n]; cbn; [done|].
          apply H. by econstructor. }
    split.
    - intros H. split; intros p x Hi Hx; apply elem_of_list_In in Hi; specialize (H p Hi); apply HP in H as [? ?]; eauto.
    - intros [H1 H2] p Hi. apply elem_of_list_In in Hi. apply HP. split; intros; eauto.
  Qed.

  (** ** In a browser *)

  Variables ve va : string -> bool.

  (** If the browser's DOM accepts what the filter accepts and names have no
      prefixes, then no patch that the filter lets through needs the fallback that
      builds an element by parsing text: what the parser would answer does not
      matter, and no attribute is refused. *)
  Hypothesis Hve : forall t, vtn t = true -> ve t = true.
  Hypothesis Hva : forall n, van n = true -> va n = true.

  Lemma set_attrs_accepted ns new : forall l,
    (forall q v, (q, v) ∈ new -> van (q_local q) = true /\ q_prefix q = None) ->
    exists l', b_set_attrs va ns l new = Some l'.
  Proof using Hva.
    induction new as [|[q v] new IH]; intros l H; cbn [b_set_attrs]; [eauto|].
    destruct (H q v) as [Hq Hp]; [left|]. unfold b_set_attr, bname. rewrite Hp, (Hva _ Hq).
    apply IH. intros q' v' Hi. apply (H q' v'). by right.
  Qed.

  Theorem accepted_without_parser c : content_ok van vtn c = true ->
    (forall q, has_attr c q -> q_prefix q = None) ->
    forall pt pt' a, b_create ve va pt a c = b_create ve va pt' a c.
  Proof using Hva Hve.
    induction c as [s|s|t l cs IH] using icontent_ind'; intros Hok Hp pt pt' a; cbn [b_create]; [done|done|].
    apply content_ok_all in Hok as [Ht Hq].
    unfold b_create_element. rewrite (Hve t) by (apply Ht; constructor).
    destruct (set_attrs_accepted NsHtml l []) as [l' El].
    { intros q v Hi. split; [apply Hq|apply Hp]; by econstructor. }
    rewrite El. destruct (new_node a _) as [a1 n].
    assert (forall c, c ∈ cs -> content_ok van vtn c = true /\ forall q, has_attr c q -> q_prefix q = None) as Hc.
    { intros c Hi. split; [apply content_ok_all; split; intros|intros]; [apply Ht|apply Hq|apply Hp]; by econstructor. }
    f_equal. clear El Ht Hq Hp a. revert a1.
    induction cs as [|c cs IHcs]; intros a1; [done|].
    destruct (Hc c) as [Hok Hp]; [left|].
    rewrite (IH c (elem_of_list_here _ _) Hok Hp pt pt'). destruct (b_create ve va pt' a1 c) as [[a2 i]| | |]; cbn [obind]; [|done..].
    destruct (dom_append a2 n i) as [a3| | |]; cbn [obind]; [|done..].
    apply IHcs; intros c' Hi; [apply IH|apply Hc]; by right.
  Qed.
End Filter.
Print Assumptions filter_exact.
Print Assumptions accepted_without_parser.

(** ** Names *)
Local Open Scope N_scope.

Lemma contains_one c s : contains [c] s = existsb (N.eqb c) s.
Proof.
  unfold contains. induction s as [|x s IH]; cbn; [done|].
  destruct (N.eqb_spec c x) as [->|Hn]; cbn; [done|].
  rewrite <- IH. by destruct (split_at [c] s) as [[? ?]|].
Qed.

Lemma existsb_not {A} (f : A -> bool) l : negb (existsb f l) = true <-> forall x, x ∈ l -> f x = false.
Proof.
  rewrite negb_true_iff. induction l as [|x l IH]; cbn.
  - split; [|done]. intros _ x Hx. inversion Hx.
  - rewrite orb_false_iff, IH. split.
    + intros [H1 H2] y Hy. apply elem_of_cons in Hy as [->|]; auto.
    + intros H. split; [apply H; left|intros y Hy; apply H; by right].
Qed.

(** What the filter accepts as the name of an attribute: the characters, and the
    first of them. *)
Theorem attr_name_exact s : valid_attr_text s = true <->
  (exists c s', s = c :: s' /\ is_ws c = false) /\
  forall x, x ∈ s -> x ∉ [61; 60; 62; 34; 39; 47] /\ 32 <= x /\ (x < 127 \/ 160 <= x).
Proof.
  unfold valid_attr_text.
  change (str "=") with [61]. change (str "<") with [60]. change (str ">") with [62].
  change (str "'") with [39]. change (str "/") with [47].
  rewrite !andb_true_iff, !contains_one, !existsb_not.
  split.
  - intros [[[[[[[[He H1] H2] H3] H4] H5] H6] Hw] Hc]. split.
    + destruct s as [|c s']; [done|]. exists c, s'. split; [done|]. by apply negb_true_iff in Hw.
    + intros x Hx. specialize (H1 x Hx). specialize (H2 x Hx). specialize (H3 x Hx).
      specialize (H4 x Hx). specialize (H5 x Hx). specialize (H6 x Hx). specialize (Hc x Hx).
      apply N.eqb_neq in H1, H2, H3, H4, H5, H6.
      unfold is_control in Hc. apply orb_false_iff in Hc as [Hc1 Hc2]. apply N.leb_gt in Hc1.
      rewrite !not_elem_of_cons. repeat split; try lia; try apply not_elem_of_nil.
      apply andb_false_iff in Hc2 as [Hc2|Hc2]; apply N.leb_gt in Hc2; lia.
  - intros [(c & s' & -> & Hw) H].
    repeat match goal with |- _ /\ _ => split end; try done.
    7: { cbn. by rewrite Hw. }
    7: { intros x Hx. destruct (H x Hx) as (_ & H1 & H2). unfold is_control.
         apply orb_false_iff. split; [apply N.leb_gt; lia|]. apply andb_false_iff.
         destruct H2; [left|right]; apply N.leb_gt; lia. }
    all: intros x Hx; destruct (H x Hx) as (H0 & _); rewrite !not_elem_of_cons in H0; apply N.eqb_neq;
      destruct H0 as (?&?&?&?&?&?&_); congruence.
Qed.
Print Assumptions attr_name_exact.

(** A tag is accepted exactly if it would be as an attribute's name and has no white
    space anywhere. *)
Theorem tag_name_exact s : valid_tag_text s = valid_attr_text s && negb (existsb is_ws s).
Proof.
  unfold valid_tag_text, valid_attr_text. destruct s as [|c s']; [done|].
  cbn [existsb starts_where]. destruct (is_ws c); cbn [orb negb]; rewrite ?andb_false_r; cbn; rewrite ?andb_false_r; [done|].
  repeat match goal with |- context [contains ?p ?t] => destruct (contains p t) end; cbn; try done;
  rewrite ?andb_false_r, ?andb_true_r; try done; by destruct (existsb is_ws s'), (is_control c || existsb is_control s').
Qed.
Print Assumptions tag_name_exact.

(** The DOM's rules.  [setAttribute] and [createElement] asked for an XML Name; its
    first character is a letter, [_], [:] or beyond ASCII (not all of these).  Since
    2025 the DOM standard asks of an attribute's name that it is not empty and has no
    ASCII white space, NUL, [/], [=] or [>], and of an element's name that begins
    with an ASCII letter that it has no ASCII white space, NUL, [/] or [>]. *)
Definition ascii_letter (c : N) : Prop := 65 <= c <= 90 \/ 97 <= c <= 122.
Definition xml_start (c : N) : Prop := ascii_letter c \/ c = 95 \/ c = 58 \/ 128 <= c.
Definition dom_attr (s : text) : Prop := s <> [] /\ forall x, x ∈ s -> x ∉ [9; 10; 12; 13; 32; 0; 47; 61; 62].
Definition dom_tag (s : text) : Prop :=
  (exists c s', s = c :: s' /\ ascii_letter c) /\ forall x, x ∈ s -> x ∉ [9; 10; 12; 13; 32; 0; 47; 62].

(** Accepted names that a parser can have made - attributes without white space,
    tags that begin with a letter - are names for the DOM of today. *)
Theorem accepted_names_dom s :
  (valid_attr_text s = true -> 32 ∉ s -> dom_attr s) /\
  (forall c s', s = c :: s' -> ascii_letter c -> valid_tag_text s = true -> dom_tag s).
Proof.
  split.
  - intros H Hs. apply attr_name_exact in H as [(c & s' & E & _) H]. split; [by subst|].
    intros x Hx. destruct (H x Hx) as (H0 & H1 & _). rewrite !not_elem_of_cons in *.
    destruct H0 as (?&?&?&?&?&?&_).
    repeat split; try lia; try apply not_elem_of_nil. intros ->. done.
  - intros c s' E Hc H. rewrite tag_name_exact, andb_true_iff, existsb_not in H. destruct H as [H Hw].
    apply attr_name_exact in H as [_ H]. split; [eauto|].
    intros x Hx. destruct (H x Hx) as (H0 & H1 & _). specialize (Hw x Hx). rewrite !not_elem_of_cons in *.
    destruct H0 as (?&?&?&?&?&?&_).
    repeat split; try lia; try apply not_elem_of_nil. intros ->. done.
Qed.
Print Assumptions accepted_names_dom.

(** But not for the DOM before: an attribute's name can begin with a digit (and does
    if the page has [<p 1a>]).  And an attribute's name with a space inside is
    accepted, which no DOM allows. *)
Theorem accepted_names_refuted :
  (exists c s, valid_attr_text (c :: s) = true /\ valid_tag_text (c :: s) = true /\ ~ xml_start c) /\
  (exists s, valid_attr_text s = true /\ ~ dom_attr s).
Proof.
  split.
  - exists 49, [97]. split; [|split]; [by vm_compute..|]. unfold xml_start, ascii_letter. lia.
  - exists [97; 32; 98]. split; [by vm_compute|]. intros [_ H]. apply (H 32).
    + apply elem_of_cons. right. left.
    + do 4 (apply elem_of_cons; right). left.
Qed.
Print Assumptions accepted_names_refuted.
Local Close Scope N_scope.

(** ** Examples *)
Definition ascii_attr (s : string) : bool := valid_attr_text (str s).
Definition ascii_tag (s : string) : bool := valid_tag_text (str s).
Definition plain_name (s : string) : qname := mkQ None "" s.
Definition good_content : icontent :=
  ICElem "div" [(plain_name "class", "a")] [ICText "x"; ICElem "p" [(plain_name "data-x", "1")] [ICComment "c"]].
Definition bad_content : icontent :=
  ICElem "div" [(plain_name "class", "a")] [ICText "x"; ICElem "p" [(plain_name "a=b", "1")] [ICComment "c"]].

(** The filter looks below the inserted element, and at each kind of patch. *)
Example filter_example :
  patches_valid ascii_attr ascii_tag
    [PInsertElement [0; 1] "ul" [] [good_content] None; PSetAttribute [0; 0] (plain_name "id") "x";
     PUpdateProps [0; 0] [mkPC PText (Some "t"); mkPC (PAttr (plain_name "id")) None]] = true /\
  patches_valid ascii_attr ascii_tag [PInsertElement [0; 1] "ul" [] [bad_content] None] = false /\
  patches_valid ascii_attr ascii_tag [PRemove [0; 1]; PInsertElement [0; 1] "a<b" [] [] None] = false /\
  patches_valid ascii_attr ascii_tag [PRemoveAttribute [0; 0] (plain_name "/")] = false /\
  patches_valid ascii_attr ascii_tag [PUpdateProps [0; 0] [mkPC (PAttr (plain_name "'")) None]] = false.
Proof. by vm_compute. Qed.

(** Contents meeting the hypotheses of [accepted_without_parser]; with a name that
    the browser refuses the parser's answer is used. *)
Example accepted_example :
  content_ok ascii_attr ascii_tag good_content = true /\
  (forall pt pt' a, b_create ascii_tag ascii_attr pt a good_content = b_create ascii_tag ascii_attr pt' a good_content) /\
  b_create ascii_tag ascii_attr (fun _ => []) [] bad_content <>
  b_create ascii_tag ascii_attr (fun _ => [HText "y"]) [] bad_content.
Proof.
  split; [by vm_compute|]. split.
  - apply (accepted_without_parser ascii_attr ascii_tag ascii_tag ascii_attr (fun t H => H) (fun n H => H)).
    + by vm_compute.
    + intros q Hq. inversion Hq as [? ? ? ? v Hi|? ? ? c ? Hi Hh]; clear Hq; subst.
      * apply elem_of_list_singleton in Hi. by injection Hi as -> _.
      * apply elem_of_cons in Hi as [->|Hi]; [inversion Hh|].
        apply elem_of_list_singleton in Hi as ->.
        inversion Hh as [? ? ? ? v Hi|? ? ? c' ? Hi Hh']; clear Hh; subst.
        -- apply elem_of_list_singleton in Hi. by injection Hi as -> _.
        -- apply elem_of_list_singleton in Hi as ->. inversion Hh'.
  - intros H. vm_compute in H. discriminate H.
Qed.
