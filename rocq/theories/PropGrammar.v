(** Property theorem C44: what the serializer writes, as a grammar. *)
From stdpp Require Import sets.
From Verif Require Import Base Arena Dom ArenaProofs EscProofs DomTree Instances InstanceProofs WfCheck.
Local Open Scope string_scope.

(** ** The grammar *)

(** Text with the characters of a list of entities written as entities. *)
Inductive escaped (entities : list (ascii * string)) : string -> string -> Prop :=
| esc_end : escaped entities "" ""
| esc_entity c e s w : (c, e) ∈ entities -> escaped entities s w -> escaped entities (String c s) (e ++ w)
| esc_plain c s w : (forall e, (c, e) ∉ entities) -> escaped entities s w -> escaped entities (String c s) (String c w).
Definition text_entities : list (ascii * string) := [("&"%char, "&amp;"); ("<"%char, "&lt;")].
Definition attr_entities : list (ascii * string) :=
  [("&"%char, "&amp;"); (Ascii.ascii_of_nat 34, "&quot;"); ("<"%char, "&lt;"); (">"%char, "&gt;")].

(** A start tag's attributes, each preceded by a space, with a prefix if there is one. *)
Inductive attributes : attrs -> string -> Prop :=
| att_nil : attributes [] ""
| att_plain ns l v e ats w : escaped attr_entities v e -> attributes ats w ->
    attributes ((mkQ None ns l, v) :: ats) (" " ++ l ++ "=""" ++ e ++ """" ++ w)
| att_prefixed p ns l v e ats w : escaped attr_entities v e -> attributes ats w ->
    attributes ((mkQ (Some p) ns l, v) :: ats) (" " ++ p ++ ":" ++ l ++ "=""" ++ e ++ """" ++ w).

(** The elements written without end tag, and those whose texts are written as they are. *)
Definition void_tags : list string :=
  ["area"; "base"; "br"; "col"; "embed"; "hr"; "img"; "input"; "link"; "meta"; "param"; "source"; "track"; "wbr"].
Definition raw_tags : list string := ["script"; "style"; "noscript"].

(** Content inside an element of the given tag. *)
Inductive content (inside : string) : list htree -> string -> Prop :=
| ct_nil : content inside [] ""
| ct_text s e ts w : inside ∉ raw_tags -> escaped text_entities s e -> content inside ts w ->
    content inside (HText s :: ts) (e ++ w)
| ct_raw s ts w : inside ∈ raw_tags -> content inside ts w -> content inside (HText s :: ts) (s ++ w)
| ct_comment s ts w : content inside ts w -> content inside (HComment s :: ts) ("<!--" ++ s ++ "-->" ++ w)
| ct_void tag ns ats cs aw ts w : tag ∈ void_tags -> attributes ats aw -> content inside ts w ->
    content inside (HElem tag ns ats cs :: ts) ("<" ++ tag ++ aw ++ ">" ++ w)
| ct_elem tag ns ats cs aw cw ts w : tag ∉ void_tags -> attributes ats aw -> content tag cs cw -> content inside ts w ->
    content inside (HElem tag ns ats cs :: ts) ("<" ++ tag ++ aw ++ ">" ++ cw ++ "</" ++ tag ++ ">" ++ w).

(** ** The serializer follows it *)

Lemma sapp_assoc (a b c : string) : (a ++ b) ++ c = a ++ (b ++ c).
Proof. induction a as [|x a IH]; [done|]. cbn. by rewrite IH. Qed.
Lemma sapp_nil (a : string) : a ++ "" = a.
Proof. induction a as [|x a IH]; [done|]. cbn. by rewrite IH. Qed.

Lemma escape_text_ok s : escaped text_entities s (escape_text s).
Proof.
  induction s as [|c s IH]; [constructor|]. unfold escape_text. cbn [str_flat_map]. fold (escape_text s).
  unfold esc_text_char. destruct (Ascii.eqb_spec c "&") as [->|N1]; [constructor 2; [set_solver|done]|].
  destruct (Ascii.eqb_spec c "<") as [->|N2]; [constructor 2; [set_solver|done]|].
  cbn. constructor 3; [|done]. intros e He. unfold text_entities in He. set_solver.
Qed.
Lemma escape_attr_ok s : escaped attr_entities s (escape_attr s).
Proof.
  induction s as [|c s IH]; [constructor|]. unfold escape_attr. cbn [str_flat_map]. fold (escape_attr s).
  unfold esc_attr_char. destruct (Ascii.eqb_spec c "&") as [->|N1]; [constructor 2; [unfold attr_entities; set_solver|done]|].
  destruct (Ascii.eqb_spec c quote_char) as [->|N2]; [constructor 2; [unfold attr_entities, quote_char; set_solver|done]|].
  destruct (Ascii.eqb_spec c "<") as [->|N3]; [constructor 2; [unfold attr_entities; set_solver|done]|].
  destruct (Ascii.eqb_spec c ">") as [->|N4]; [constructor 2; [unfold attr_entities; set_solver|done]|].
  change (String c "" ++ escape_attr s) with (String c (escape_attr s)).
  constructor 3; [|done]. intros e He. unfold attr_entities in He. unfold quote_char in N2.
  rewrite !elem_of_cons, elem_of_nil in He. naive_solver.
Qed.
Lemma concat_cons x l : String.concat "" (x :: l) = x ++ String.concat "" l.
Proof. destruct l as [|y l]; cbn; [by rewrite sapp_nil|done]. Qed.
Lemma ser_attrs_ok ats : attributes ats (ser_attrs ats).
Proof.
  induction ats as [|[[p ns l] v] ats IH]; [constructor|]. unfold ser_attrs. cbn [map]. rewrite concat_cons.
  fold (ser_attrs ats). unfold ser_attr. cbn [q_prefix q_local].
  destruct p as [p|]; rewrite !sapp_assoc.
  - apply att_prefixed; [apply escape_attr_ok|done].
  - cbn. apply att_plain; [apply escape_attr_ok|done].
Qed.
Lemma void_tags_eq t : is_void_element t = true <-> t ∈ void_tags.
Proof.
  unfold is_void_element. rewrite existsb_exists. setoid_rewrite String.eqb_eq. setoid_rewrite <- elem_of_list_In.
  split; [intros (x & Hx & ->); exact Hx|intros H; by exists t].
Qed.
Lemma raw_tags_eq t : is_raw_text_element t = true <-> t ∈ raw_tags.
Proof.
  unfold is_raw_text_element. rewrite existsb_exists. setoid_rewrite String.eqb_eq. setoid_rewrite <- elem_of_list_In.
  split; [intros (x & Hx & ->); exact Hx|intros H; by exists t].
Qed.
Lemma ser_ts_cons raw t ts : ser_ts raw (t :: ts) = ser_t raw t ++ ser_ts raw ts.
Proof. done. Qed.

Lemma content_ok h : forall inside ts, content inside ts (ser_ts (is_raw_text_element inside) ts) ->
  content inside (h :: ts) (ser_ts (is_raw_text_element inside) (h :: ts)).
Proof.
  induction h as [s|s|tag ns ats cs IH] using htree_ind'; intros inside ts Hts; rewrite ser_ts_cons.
  - cbn [ser_t]. destruct (is_raw_text_element inside) eqn:E.
    + apply ct_raw; [by apply raw_tags_eq|done].
    + apply ct_text; [rewrite <- raw_tags_eq; congruence|apply escape_text_ok|done].
  - cbn [ser_t]. rewrite !sapp_assoc. by apply ct_comment.
  - rewrite ser_t_elem. destruct (is_void_element tag) eqn:E; rewrite !sapp_assoc.
    + apply ct_void; [by apply void_tags_eq|apply ser_attrs_ok|done].
    + apply ct_elem; [rewrite <- void_tags_eq; congruence|apply ser_attrs_ok| |done].
      clear - IH. induction cs as [|c cs IHcs]; [constructor|]. apply IH; [left|].
      apply IHcs. intros c' Hc'. apply IH. by right.
Qed.
Lemma contents_ok inside ts : content inside ts (ser_ts (is_raw_text_element inside) ts).
Proof. induction ts as [|h ts IH]; [constructor|by apply content_ok]. Qed.

(** The grammar gives one text. *)
Lemma escaped_det en s : (forall c e e', (c, e) ∈ en -> (c, e') ∈ en -> e = e') ->
  forall w w', escaped en s w -> escaped en s w' -> w = w'.
Proof.
  intros U. induction s as [|c s IH]; intros w w' H H'.
  - inversion H. by inversion H'.
  - inversion H as [|? e ? v M Hv|? ? v M Hv]; inversion H' as [|? e' ? v' M' Hv'|? ? v' M' Hv']; subst.
    + by rewrite (U _ _ _ M M'), (IH _ _ Hv Hv').
    + by destruct (M' e).
    + by destruct (M e').
    + by rewrite (IH _ _ Hv Hv').
Qed.
Lemma text_det s w w' : escaped text_entities s w -> escaped text_entities s w' -> w = w'.
Proof.
  apply escaped_det. intros c e e'. unfold text_entities. rewrite !elem_of_cons, !elem_of_nil.
  intros H H'. repeat match goal with H : _ \/ _ |- _ => destruct H as [H|H] end; try done; simplify_eq; try done; by vm_compute in *.
Qed.
Lemma attr_det s w w' : escaped attr_entities s w -> escaped attr_entities s w' -> w = w'.
Proof.
  apply escaped_det. intros c e e'. unfold attr_entities. rewrite !elem_of_cons, !elem_of_nil.
  intros H H'. repeat match goal with H : _ \/ _ |- _ => destruct H as [H|H] end; try done; simplify_eq; try done; by vm_compute in *.
Qed.
Lemma attributes_det ats : forall w w', attributes ats w -> attributes ats w' -> w = w'.
Proof.
  induction ats as [|[[p ns l] v] ats IH]; intros w w' H H'.
  - inversion H. by inversion H'.
  - destruct p as [p|]; inversion H as [|? ? ? e ? x He Hx|? ? ? ? e ? x He Hx];
      inversion H' as [|? ? ? e' ? x' He' Hx'|? ? ? ? e' ? x' He' Hx']; subst;
      by rewrite (attr_det _ _ _ He He'), (IH _ _ Hx Hx').
Qed.
Lemma content_det inside ts w : content inside ts w -> w = ser_ts (is_raw_text_element inside) ts.
Proof.
  induction 1 as [|inside s e ts w R He _ IH|inside s ts w R _ IH|inside s ts w _ IH
    |inside tag ns ats cs aw ts w V Ha _ IH|inside tag ns ats cs aw cw ts w V Ha _ IHc _ IH];
    [done|rewrite ser_ts_cons..].
  - rewrite <- raw_tags_eq in R. destruct (is_raw_text_element inside) eqn:E; [done|]. cbn [ser_t]. rewrite IH.
    by rewrite (text_det _ _ _ He (escape_text_ok s)).
  - apply raw_tags_eq in R. rewrite R. cbn [ser_t]. rewrite R in IH. by rewrite IH.
  - cbn [ser_t]. rewrite !sapp_assoc. by rewrite IH.
  - apply void_tags_eq in V. rewrite ser_t_elem, V, !sapp_assoc, IH. by rewrite (attributes_det _ _ _ Ha (ser_attrs_ok ats)).
  - rewrite <- void_tags_eq in V. rewrite ser_t_elem. destruct (is_void_element tag) eqn:E; [done|].
    rewrite !sapp_assoc, IHc, IH. by rewrite (attributes_det _ _ _ Ha (ser_attrs_ok ats)).
Qed.

(** C44: the HTML of a document is the doctype, if there is one, followed by what
    the grammar gives for the root; the body HTML is what it gives for the content
    of the body.  Nothing else is ever written. *)
Theorem serialization_grammar : forall (d : document) (h : htree) (s : string),
  wf (doc_arena d) -> holds (doc_arena d) h (doc_root d) ->
  to_html d = Some s <->
  exists w, content "" [h] w /\
    s = match doc_doctype d with Some t => "<!DOCTYPE " ++ t ++ ">" ++ w | None => w end.
Proof.
  intros d h s W Hh. unfold to_html, to_html_without_doctype. rewrite (serialize_node_holds _ _ _ W Hh).
  assert (C : content "" [h] (ser_t false h)).
  { pose proof (contents_ok "" [h]) as C. cbn in C. by rewrite sapp_nil in C. }
  split.
  - intros E. apply (inj Some) in E as <-. exists (ser_t false h). split; [done|].
    destruct (doc_doctype d); [by rewrite !sapp_assoc|done].
  - intros (w & Hw & ->). apply content_det in Hw, C. rewrite C, <- Hw. destruct (doc_doctype d); [by rewrite !sapp_assoc|done].
Qed.
Print Assumptions serialization_grammar.

Theorem body_serialization_grammar : forall (d : document) (b : nat) (ts : list htree) (s : string),
  wf (doc_arena d) -> body d = Some b -> holds_list (doc_arena d) ts (children (doc_arena d) b) ->
  to_body_html d = Some s <-> content "" ts s.
Proof.
  intros d b ts s W Hb Hts. unfold to_body_html. rewrite Hb, (serialize_inner_holds _ _ _ W Hts). split.
  - intros [= <-]. apply (contents_ok "").
  - intros H. by apply content_det in H as ->.
Qed.
Print Assumptions body_serialization_grammar.

(** Every rule of the grammar in one document. *)
Definition grammar_ex : document :=
  let d := mk_doc [] [el_a "p" [(mkQ (Some "x") "" "k", "<""&>")] [tx "a<b"; el "br" [tx "lost"]; HComment "c"];
                      el "style" [tx "a<b&"; el "i" [tx "<"]]] in
  mkDoc (doc_arena d) (doc_root d) (Some "html").
Example grammar_example :
  wf (doc_arena grammar_ex) /\
  (exists h, holds (doc_arena grammar_ex) h (doc_root grammar_ex)) /\
  to_html grammar_ex = Some ("<!DOCTYPE html><html><head></head><body>" ++
    "<p x:k=""&lt;&quot;&amp;&gt;"">a&lt;b<br><!--c--></p><style>a<b&<i>&lt;</i></style></body></html>").
Proof.
  split; [apply wf_check_sound; vm_compute; reflexivity|]. split; [|vm_compute; reflexivity].
  exists (el "html" [el "head" []; el "body" [el_a "p" [(mkQ (Some "x") "" "k", "<""&>")] [tx "a<b"; el "br" [tx "lost"]; HComment "c"];
                      el "style" [tx "a<b&"; el "i" [tx "<"]]]]).
  vm_compute. repeat split.
Qed.

(** Finding: texts in [iframe], [noembed], [noframes], [plaintext] and [xmp] are
    escaped although an HTML parser reads the content of these elements as plain
    text without entities: in such an element the text [a<b] is written as
    [a&lt;b], which reads back as those characters. *)
Theorem plain_text_elements_refuted : exists tags text,
  tags = ["iframe"; "noembed"; "noframes"; "plaintext"; "xmp"] /\
  forall tag, tag ∈ tags ->
    to_body_html (mk_doc [] [el tag [tx text]]) <> Some ("<" ++ tag ++ ">" ++ text ++ "</" ++ tag ++ ">") /\
    to_body_html (mk_doc [] [el tag [tx text]]) = Some ("<" ++ tag ++ ">a&lt;b</" ++ tag ++ ">").
Proof.
  eexists _, "a<b". split; [reflexivity|]. intros tag H. rewrite !elem_of_cons, elem_of_nil in H.
  destruct H as [->|[->|[->|[->|[->|[]]]]]]; (split; [vm_compute; discriminate|vm_compute; reflexivity]).
Qed.
Print Assumptions plain_text_elements_refuted.
