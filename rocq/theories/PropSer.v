(** Property theorems C15: the serialized form determines the tree. *)
From stdpp Require Import list_numbers sets.
From Verif Require Import Base Arena Dom ArenaProofs EscProofs DomTree BuildProofs
  Instances InstanceProofs WfCheck SerProofs.
Local Open Scope string_scope.

(** ** C15 *)

(** Two bodies with the same body HTML consist of the same nodes, up to
    namespaces: [readables] excludes what the output cannot distinguish (empty
    texts, adjacent texts, comments that contain their end, children of void
    elements, names that do not look like names). *)
Theorem serialization_determines_tree : forall (d d' : document) b b' ts ts',
  wf (doc_arena d) -> wf (doc_arena d') -> body d = Some b -> body d' = Some b' ->
  holds_list (doc_arena d) ts (children (doc_arena d) b) ->
  holds_list (doc_arena d') ts' (children (doc_arena d') b') ->
  readables ts -> readables ts' ->
  to_body_html d = to_body_html d' ->
  map visible ts = map visible ts'.
Proof.
  intros d d' b b' ts ts' W W' B B' Ht Ht' R R' E. unfold to_body_html in E. rewrite B, B' in E.
  rewrite (serialize_inner_holds _ _ _ W Ht), (serialize_inner_holds _ _ _ W' Ht') in E.
  injection E as E. by apply ser_inj.
Qed.
Print Assumptions serialization_determines_tree.

(** Every exclusion is needed: each pair is serialized alike. *)
Theorem serialization_ambiguous_refuted : exists pairs : list (list htree * list htree),
  length pairs = 6 /\
  (forall ts us, (ts, us) ∈ pairs -> map visible ts <> map visible us /\
     to_body_html (mk_doc [] ts) = to_body_html (mk_doc [] us)).
Proof.
  exists [([tx ""], []);
          ([tx "a"; tx "b"], [tx "ab"]);
          ([HComment "a--><!--b"], [HComment "a"; HComment "b"]);
          ([el "br" [tx "x"]], [el "br" []]);
          ([el "style" [tx "</style><style>"]], [el "style" []; el "style" []]);
          ([el "style" [HElem "b" NsHtml [] []]], [el "style" [tx "<b></b>"]])].
  split; [done|]. intros ts us Hin. rewrite !elem_of_cons, elem_of_nil in Hin.
  repeat match goal with H : _ \/ _ |- _ => destruct H as [E|H]; [injection E as -> ->|] end; try done;
    (split; [vm_compute; discriminate|vm_compute; reflexivity]).
Qed.
Print Assumptions serialization_ambiguous_refuted.

(** Quotes, ampersands, markup in texts and raw texts, a comment with dashes,
    a void element, foreign content and a prefixed attribute. *)
Definition ser_ex (ns : nspace) (q : qname) : list htree :=
  [tx "a < b & ""c"""; el_a "p" [ex_attr "title" "say ""hi"" > & <"; (q, "")] [tx "x"; HComment "a -- > b"];
   el "br" []; HElem "svg" ns [] [el "g" []]; tx "y"; el "script" [tx "if (a</b) ""<i>"""]; el "style" []].
Lemma only_last_check w s : (forall k, k < String.length s -> String.substring k (String.length w) (s ++ w) <> w) ->
  only_last w s.
Proof.
  intros C p q E. destruct (decide (String.length p < String.length s)) as [L|L].
  - exfalso. apply (C (String.length p) L). rewrite E. clear.
    induction p as [|c p IH]; [|done]. cbn. induction w as [|c w IH]; [by destruct q|]. cbn. by rewrite IH.
  - apply (f_equal String.length) in E. rewrite !slen_app in E. destruct q; [done|]. cbn in E. lia.
Qed.
Fixpoint occurs_b (c : ascii) (s : string) : bool :=
  match s with EmptyString => false | String d s' => Ascii.eqb d c || occurs_b c s' end.
Lemma occurs_check c s : occurs_b c s = false -> ~ occurs c s.
Proof.
  induction s as [|d s IH]; cbn; [tauto|]. intros E. apply orb_false_elim in E as [E1 E2].
  intros [->|H]; [by rewrite Ascii.eqb_refl in E1|]. by apply IH.
Qed.
Lemma ser_ex_readable ns q : attr_ok (q, "") -> readables (ser_ex ns q).
Proof.
  intros A.
  assert (forall t, t ∈ ["p"; "br"; "svg"; "g"; "script"; "style"] -> tag_ok t) as T.
  { intros t Ht. rewrite !elem_of_cons, elem_of_nil in Ht.
    destruct Ht as [->|[->|[->|[->|[->|[->|[]]]]]]]; (split; [done|]; split; by apply occurs_check). }
  assert (forall s, s <> "" -> readable (tx s)) as X by (intros; by constructor).
  assert (forall kv : attr, kv ∈ [] -> attr_ok kv) as Z by (intros kv Hkv; by apply elem_of_nil in Hkv).
  unfold ser_ex.
  repeat (apply rds_cons; [| |cbn; tauto]); try by apply X.
  - apply rd_elem; [apply T; set_solver| |done|done|].
    + intros kv Hkv. rewrite !elem_of_cons, elem_of_nil in Hkv. destruct Hkv as [->|[->|[]]]; [|done].
      by apply occurs_check.
    + constructor; [by apply X| |naive_solver]. constructor; [|constructor|naive_solver].
      constructor. apply only_last_check. intros k Hk. cbn in Hk.
      do 8 (destruct k as [|k]; [vm_compute; discriminate|]). lia.
  - apply rd_void; [apply T; set_solver|done|done].
  - apply rd_elem; [apply T; set_solver|done|done|done|]. constructor; [|constructor|naive_solver].
    apply rd_elem; [apply T; set_solver|done|done|done|constructor].
  - apply rd_raw; [apply T; set_solver|done|done|done|done|]. apply only_last_check. intros k Hk. cbn in Hk.
    do 15 (destruct k as [|k]; [vm_compute; discriminate|]). lia.
  - apply rd_raw_empty; [apply T; set_solver|done|done|done].
  - constructor.
Qed.
Example serialization_example :
  readables (ser_ex NsSvg (mkQ (Some "xlink") "" "href")) /\
  readables (ser_ex NsHtml (mkQ None "" "xlink:href")) /\
  to_body_html (mk_doc [] (ser_ex NsSvg (mkQ (Some "xlink") "" "href"))) =
  to_body_html (mk_doc [] (ser_ex NsHtml (mkQ None "" "xlink:href"))) /\
  to_body_html (mk_doc [] (ser_ex NsHtml (mkQ None "" "k"))) =
  Some "a &lt; b &amp; ""c""<p title=""say &quot;hi&quot; &gt; &amp; &lt;"" k="""">x<!--a -- > b--></p><br><svg><g></g></svg>y<script>if (a</b) ""<i>""</script><style></style>".
Proof.
  split; [apply ser_ex_readable; by apply occurs_check|].
  split; [apply ser_ex_readable; by apply occurs_check|].
  split; vm_compute; reflexivity.
Qed.
