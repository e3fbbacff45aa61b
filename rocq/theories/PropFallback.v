(** C71: content that the browser inserts, also when the DOM API rejects a name. *)
From stdpp Require Import list_numbers.
From Coq Require Import Ascii.
From Verif Require Import Base Arena ArenaProofs ArenaOps Dom DomTree HtmlDiff Server ServerProofs Browser BrowserProofs
  Instances.
Local Open Scope string_scope.

(** The tree that the content stands for in a browser: attribute names are flat. *)
Fixpoint shown (c : icontent) : htree :=
  match c with
  | ICElem tag ats cs => HElem tag NsHtml (battrs ats) (map shown cs)
  | ICText s => HText s
  | ICComment s => HComment s
  end.

(** The content itself and everything in it. *)
Fixpoint parts (c : icontent) : list icontent :=
  c :: match c with ICElem _ _ cs => flat_map parts cs | _ => [] end.

(** Names in lower case, no attribute twice. *)
Definition tidy (c : icontent) : Prop :=
  match c with
  | ICElem tag ats _ =>
      lower tag = tag /\ NoDup (map (fun kv : attr => bname (fst kv)) ats) /\
      (forall q v, (q, v) ∈ ats -> lower (bname q) = bname q)
  | _ => True
  end.

(** Not void, and text in script, style and noscript needs no escapes. *)
Definition markable (c : icontent) : Prop :=
  match c with
  | ICElem tag _ cs =>
      is_void_element tag = false /\
      (is_raw_text_element tag = true -> forall s, ICText s ∈ cs -> escape_text s = s)
  | _ => True
  end.

(** The DOM API refuses the tag or one of the attribute names. *)
Definition rejected (valid_elem valid_attr : string -> bool) (c : icontent) : Prop :=
  match c with
  | ICElem tag ats _ => valid_elem tag = false \/ exists q v, (q, v) ∈ ats /\ valid_attr (bname q) = false
  | _ => False
  end.

Lemma parts_self c : c ∈ parts c.
Proof. destruct c; left. Qed.
Lemma parts_child tag ats cs c s : c ∈ cs -> s ∈ parts c -> s ∈ parts (ICElem tag ats cs).
Proof. intros Hc Hs. right. apply elem_of_list_In, in_flat_map. exists c. by rewrite <- !elem_of_list_In. Qed.

Lemma str_concat_cons x l : String.concat "" (x :: l) = x ++ String.concat "" l.
Proof. destruct l as [|y l]; cbn [String.concat]; [by rewrite str_app_nil_r|done]. Qed.

Lemma ser_attrs_flat ats : String.concat "" (map b_ser_attr ats) = ser_attrs (battrs ats).
Proof.
  unfold ser_attrs, battrs. f_equal. rewrite map_map. apply map_ext. intros [q v]. done.
Qed.

(** The markup that the fallback gives to the browser's parser is what the native
    document would be serialized to. *)
Theorem fallback_markup : forall c, (forall s, s ∈ parts c -> markable s) -> b_ser_content c = ser_t false (shown c).
Proof.
  induction c as [s|s|tag ats cs IH] using icontent_ind'; intros Hm; [done|done|].
  destruct (Hm _ (parts_self _)) as [Hv Hr]. cbn [shown b_ser_content]. rewrite ser_t_elem, Hv, ser_attrs_flat.
  assert (String.concat "" (map b_ser_content cs) = ser_ts (is_raw_text_element tag) (map shown cs)) as ->; [|done].
  assert (forall c, c ∈ cs -> b_ser_content c = ser_t (is_raw_text_element tag) (shown c)) as HI.
  { intros c Hc. rewrite IH; [|done|intros s Hs; apply Hm; by eapply parts_child].
    destruct (is_raw_text_element tag); [|done]. destruct c as [t l cs'|s|s]; [|cbn; by rewrite Hr|done].
    cbn [shown]. by rewrite !ser_t_elem. }
  clear - HI. induction cs as [|c cs IHc]; [done|]. cbn [map ser_ts]. rewrite str_concat_cons, HI by left.
  f_equal. apply IHc. intros c' Hc'. apply HI. by right.
Qed.
Print Assumptions fallback_markup.

Section Fallback.
  Variables valid_elem valid_attr : string -> bool.
  Variable parse_template : string -> list htree.
  Notation create := (b_create valid_elem valid_attr parse_template).

  Lemma set_attrs_or new : forall l,
    (forall q v, (q, v) ∈ new -> lower (bname q) = bname q) ->
    NoDup (keys l ++ map flat (map (fun kv : attr => bname (fst kv)) new))%list ->
    (forall q v, (q, v) ∈ new -> valid_attr (bname q) = true) /\ b_set_attrs valid_attr NsHtml l new = Some (l ++ battrs new)%list \/
    (exists q v, (q, v) ∈ new /\ valid_attr (bname q) = false) /\ b_set_attrs valid_attr NsHtml l new = None.
  Proof using.
    induction new as [|[q v] new IH]; intros l Hl Hnd; cbn [b_set_attrs].
    - left. split; [intros q v Hin; by apply elem_of_nil in Hin|by rewrite app_nil_r].
    - cbn [map fst] in Hnd. unfold b_set_attr. destruct (valid_attr (bname q)) eqn:Ev.
      2:{ right. split; [|done]. exists q, v. split; [left|done]. }
      cbn [in_case]. rewrite (Hl q v) by left.
      rewrite attr_set_fresh. 2:{ intros Hin. apply NoDup_app in Hnd as (_ & Hd & _). apply (Hd _ Hin). left. }
      destruct (IH (l ++ [(flat (bname q), v)])%list) as [[H1 H2]|[H1 H2]].
      + intros q' v' Hin. apply (Hl q' v'). by right.
      + unfold keys. rewrite map_app. cbn [map fst]. by rewrite <- app_assoc.
      + left. split; [|rewrite H2; by rewrite <- app_assoc].
        intros q' v' Hin. apply elem_of_cons in Hin as [[= -> ->]|Hin]; [done|by eapply H1].
      + right. split; [|done]. destruct H1 as (q' & v' & Hin & Hf). exists q', v'. split; [by right|done].
  Qed.

  Lemma create_element_or tag ats cs : tidy (ICElem tag ats cs) ->
    b_create_element valid_elem valid_attr tag ats = Some (mkD (NElem tag (battrs ats)) NsHtml) \/
    rejected valid_elem valid_attr (ICElem tag ats cs) /\ b_create_element valid_elem valid_attr tag ats = None.
  Proof using.
    intros (Ht & Hn & Hl). unfold b_create_element. destruct (valid_elem tag) eqn:Ev; [|right; split; [by left|done]].
    destruct (set_attrs_or ats [] Hl) as [[_ ->]|[H1 ->]].
    - cbn [keys map app]. by apply (NoDup_fmap_2 _ _).
    - left. by rewrite Ht.
    - right. split; [by right|done].
  Qed.

  Lemma create_clone c : forall a r,
    (forall s, s ∈ parts c -> tidy s) ->
    (forall s, s ∈ parts c -> rejected valid_elem valid_attr s ->
       (forall p, p ∈ parts s -> markable p) /\ parse_template (ser_t false (shown s)) = [shown s]) ->
    clone_tree a (shown c) = Val r -> create a c = Val r.
  Proof using.
    induction c as [s|s|tag ats cs IH] using icontent_ind'; intros a r HT HR; [done|done|].
    cbn [shown b_create]. rewrite clone_tree_elem.
    destruct (create_element_or tag ats cs (HT _ (parts_self _))) as [->|[Hrej ->]].
    - destruct (new_node a (mkD (NElem tag (battrs ats)) NsHtml)) as [a1 n].
      match goal with |- _ -> (obind (?f a1 cs) _) = _ => set (go := f) end. intros E.
      assert (forall l a1 a2, (forall c, c ∈ l -> c ∈ cs) -> clone_under a1 n (map shown l) = Val a2 -> go a1 l = Val a2) as HG.
      { induction l as [|c l IHl]; intros b1 b2 Hl E1; [done|]. cbn [map clone_under] in E1.
        change (go b1 (c :: l)) with (let! (a', i) := create b1 c in let! a'' := dom_append a' n i in go a'' l).
        assert (c ∈ cs) as Hc by (apply Hl; left).
        destruct (clone_tree b1 (shown c)) as [[b3 i]| | |] eqn:E3; try done. cbn [obind] in E1.
        rewrite (IH c Hc b1 (b3, i)); [|intros s Hs; apply HT; by eapply parts_child|
          intros s Hs; apply HR; by eapply parts_child|done]. cbn [obind]. unfold dom_append.
        destruct (append b3 n i) as [b4| | |]; try done. cbn [obind] in E1 |- *. apply IHl; [|done].
        intros c' Hc'. apply Hl. by right. }
      destruct (clone_under a1 n (map shown cs)) as [a2| | |] eqn:E2; try done. by rewrite (HG cs a1 a2 (fun _ H => H) E2).
    - intros E. destruct (HR _ (parts_self _) Hrej) as [Hm Hp]. unfold b_via_html.
      rewrite fallback_markup by done. rewrite Hp. cbn [shown]. by rewrite clone_tree_elem.
  Qed.
End Fallback.

(** Any content whose names are in lower case and distinct: the browser makes the
    node that the content stands for, whether the DOM API takes the names or the
    fallback through the HTML parser is used.  The parser is only asked to read
    back what the native serializer writes. *)
Theorem inserted_content_shown : forall valid_elem valid_attr parse_template (a : arena dnode) (c : icontent),
  wf a -> (forall s, s ∈ parts c -> tidy s) ->
  (forall s, s ∈ parts c -> rejected valid_elem valid_attr s ->
     (forall p, p ∈ parts s -> markable p) /\ parse_template (ser_t false (shown s)) = [shown s]) ->
  exists a', b_create valid_elem valid_attr parse_template a c = Val (a', length a) /\
    holds a' (shown c) (length a) /\ wf a' /\ parent a' (length a) = None /\
    (forall i, i < length a -> data a' i = data a i /\ children a' i = children a i /\ parent a' i = parent a i).
Proof.
  intros valid_elem valid_attr parse_template a c W HT HR.
  destruct (clone_tree_all (shown c) a W) as (a' & E & X & _ & Po & Hh). exists a'.
  split; [by apply create_clone|]. split; [done|]. split; [apply X|]. split; [done|]. intros i Hi.
  split; [by apply (ex_data _ _ X)|]. split; [by apply (ex_children _ _ X)|by apply (ex_parent _ _ X)].
Qed.
Print Assumptions inserted_content_shown.

Local Ltac tidy_parts :=
  let s := fresh in let Hs := fresh in
  intros s Hs; cbn in Hs;
  repeat (apply elem_of_cons in Hs as [->|Hs];
    [first [exact I
           |split; [reflexivity|split;
             [cbn; first [apply NoDup_nil_2|apply NoDup_singleton]
             |intros ? ? Hin; repeat (apply elem_of_cons in Hin as [[= -> ->]|Hin]; [done|]); by apply elem_of_nil in Hin]]]|]);
  by apply elem_of_nil in Hs.

(** A browser that refuses names with an at sign; [<div @a="1"><b>x &amp; y</b></div>]
    goes through the parser, its sibling does not. *)
Definition no_at (s : string) : bool := match str_find "@" s with Some _ => false | None => true end.
Definition at_content : icontent :=
  ICElem "p" [] [ICElem "div" [(flat "@a", "1")] [ICElem "b" [] [ICText "x & y"]]; ICElem "i" [(flat "id", "z")] []].
Definition at_div : htree :=
  HElem "div" NsHtml [(flat "@a", "1")] [HElem "b" NsHtml [] [HText "x & y"]].
Definition at_parser (s : string) : list htree :=
  if String.eqb s (ser_t false at_div) then [at_div] else [].
Example inserted_content_example :
  (forall s, s ∈ parts at_content -> tidy s) /\
  (forall s, s ∈ parts at_content -> rejected no_at no_at s ->
     (forall p, p ∈ parts s -> markable p) /\ at_parser (ser_t false (shown s)) = [shown s]) /\
  (exists s, s ∈ parts at_content /\ rejected no_at no_at s) /\
  (exists a', b_create no_at no_at at_parser [] at_content = Val (a', 0) /\ holds a' (shown at_content) 0) /\
  b_ser_content (ICElem "div" [(flat "@a", "1")] [ICElem "b" [] [ICText "x & y"]])
    = "<div @a=" ++ quote ++ "1" ++ quote ++ "><b>x &amp; y</b></div>".
Proof.
  assert (forall s, s ∈ parts at_content -> tidy s) as HT.
  { tidy_parts. }
  assert (forall s, s ∈ parts at_content -> rejected no_at no_at s ->
     (forall p, p ∈ parts s -> markable p) /\ at_parser (ser_t false (shown s)) = [shown s]) as HR.
  { intros s Hs Hr. cbn in Hs.
    repeat (apply elem_of_cons in Hs as [->|Hs];
      [first [split; [|by vm_compute]; intros p Hp; cbn in Hp;
                repeat (apply elem_of_cons in Hp as [->|Hp]; [cbn; done|]); by apply elem_of_nil in Hp
             |exfalso; cbn in Hr; destruct Hr as [Hr|(q & v & Hin & Hf)]; [done|];
              repeat (apply elem_of_cons in Hin as [[= -> ->]|Hin]; [done|]); by apply elem_of_nil in Hin
             |done]|]).
    by apply elem_of_nil in Hs. }
  split; [done|]. split; [done|]. split.
  { exists (ICElem "div" [(flat "@a", "1")] [ICElem "b" [] [ICText "x & y"]]). split; [right; left|].
    right. exists (flat "@a"), "1". split; [left|done]. }
  split; [|by vm_compute].
  destruct (inserted_content_shown no_at no_at at_parser [] at_content) as (a' & E & Hh & _); [|done|done|by exists a'].
  split; [|intros; apply NoDup_nil_2|intros i; exists []; by constructor].
  intros i p. split; [done|]. intros H. inversion H.
Qed.

(** Void elements inside of the content get an end tag.  HTML reads [</br>] as a
    second [<br>] (the standard's rule for an end tag "br"), so the page then shows
    two. *)
Theorem fallback_void_refuted : exists c : icontent, (forall s, s ∈ parts c -> tidy s) /\
  b_ser_content c = "<div @=" ++ quote ++ quote ++ "><br></br></div>" /\
  ser_t false (shown c) = "<div @=" ++ quote ++ quote ++ "><br></div>" /\
  forall parse_template,
    (** as HTML prescribes for the first text *)
    parse_template (b_ser_content c) =
      [HElem "div" NsHtml [(flat "@", "")] [HElem "br" NsHtml [] []; HElem "br" NsHtml [] []]] ->
    exists a', b_create no_at no_at parse_template [] c = Val (a', 0) /\ length (children a' 0) = 2.
Proof.
  exists (ICElem "div" [(flat "@", "")] [ICElem "br" [] []]). split.
  { tidy_parts. }
  split; [by vm_compute|]. split; [by vm_compute|]. intros parse_template Hp.
  change (b_create no_at no_at parse_template [] (ICElem "div" [(flat "@", "")] [ICElem "br" [] []]))
    with (b_via_html parse_template [] "div" [(flat "@", "")] [ICElem "br" [] []]).
  unfold b_via_html. rewrite Hp. eexists. split; [vm_compute; reflexivity|reflexivity].
Qed.
Print Assumptions fallback_void_refuted.

(** Text in a script is escaped, though a parser does not undo escapes there. *)
Theorem fallback_script_refuted : exists c : icontent, (forall s, s ∈ parts c -> tidy s) /\
  b_ser_content c = "<script @=" ++ quote ++ quote ++ ">a&lt;b</script>" /\
  ser_t false (shown c) = "<script @=" ++ quote ++ quote ++ ">a<b</script>" /\
  forall parse_template,
    parse_template (b_ser_content c) = [HElem "script" NsHtml [(flat "@", "")] [HText "a&lt;b"]] ->
    exists a', b_create no_at no_at parse_template [] c = Val (a', 0) /\ holds a' (HText "a&lt;b") 1.
Proof.
  exists (ICElem "script" [(flat "@", "")] [ICText "a<b"]). split.
  { tidy_parts. }
  split; [by vm_compute|]. split; [by vm_compute|]. intros parse_template Hp.
  change (b_create no_at no_at parse_template [] (ICElem "script" [(flat "@", "")] [ICText "a<b"]))
    with (b_via_html parse_template [] "script" [(flat "@", "")] [ICText "a<b"]).
  unfold b_via_html. rewrite Hp. eexists. split; [vm_compute; reflexivity|]. by vm_compute.
Qed.
Print Assumptions fallback_script_refuted.

(** Such content reaches the browser: a new opaque element is sent whole.  Here
    [<div data-hotmeal-opaque @click="a"><br></div>] appears on an empty page. *)
Definition at_widget : list htree :=
  [el_a "div" [ex_attr "data-hotmeal-opaque" ""; ex_attr "@click" "a"] [el "br" []]].
Definition two_breaks : htree :=
  el_a "div" [(flat "data-hotmeal-opaque", ""); (flat "@click", "a")] [el "br" []; el "br" []].
Theorem fallback_update_refuted : exists old new ps, pdiff old new = Val ps /\
  to_body_html new = Some "<div data-hotmeal-opaque="""" @click=""a""><br></div>" /\
  forall parse_template,
    parse_template "<div data-hotmeal-opaque="""" @click=""a""><br></br></div>" = [two_breaks] ->
    let r := browser_apply no_at no_at parse_template old ps in
    snd r = Val tt /\ to_body_html (fst r) = Some "<div data-hotmeal-opaque="""" @click=""a""><br><br></div>".
Proof.
  exists (mk_doc [] []), (mk_doc [] at_widget). eexists. split; [vm_compute; reflexivity|]. split; [by vm_compute|].
  intros parse_template Hp. unfold browser_apply.
  change (body (mk_doc [] [])) with (Some 2). cbn [b_apply_all b_apply_patch touches_slot0].
  unfold b_insert. cbn [b_create].
  change (b_create_element no_at no_at "div" [(mkQ None "" "data-hotmeal-opaque", ""); (mkQ None "" "@click", "a")]) with (@None dnode).
  cbv iota. unfold b_via_html.
  change (b_ser_content (ICElem "div" [(mkQ None "" "data-hotmeal-opaque", ""); (mkQ None "" "@click", "a")] [ICElem "br" [] []]))
    with "<div data-hotmeal-opaque="""" @click=""a""><br></br></div>".
  rewrite Hp. vm_compute. done.
Qed.
Print Assumptions fallback_update_refuted.
