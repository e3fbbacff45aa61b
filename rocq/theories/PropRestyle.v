(** Property theorem C41: documents whose bodies differ in attributes only. *)
From stdpp Require Import list_numbers.
From Verif Require Import Base Arena Matching Chawathe Dom HtmlDiff ArenaProofs ArenaOps TreeProofs DomTree BuildProofs
  DiffTotal AssembleProofs SelfProofs RestyleProofs AttrProofs WfCheck Instances InstanceProofs PropMatch PropRoundtrip
  PropTotal PropSelf.
Local Open Scope string_scope.

Definition marked (l : attrs) : bool := existsb (fun kv => String.eqb (q_local (fst kv)) "data-hotmeal-opaque") l.

(** The same trees but for the attributes of elements.  Names are distinct, the
    same elements are marked as opaque, and the content of those is equal. *)
Inductive same_but_attrs : htree -> htree -> Prop :=
| sb_text s : same_but_attrs (HText s) (HText s)
| sb_comment s : same_but_attrs (HComment s) (HComment s)
| sb_elem tag ns l l' cs cs' :
    NoDup (map fst l) -> NoDup (map fst l') -> marked l = false -> marked l' = false ->
    Forall2 same_but_attrs cs cs' -> same_but_attrs (HElem tag ns l cs) (HElem tag ns l' cs')
| sb_opaque tag ns l l' cs :
    NoDup (map fst l) -> NoDup (map fst l') -> marked l = true -> marked l' = true ->
    Forall distinct_attrs cs -> same_but_attrs (HElem tag ns l cs) (HElem tag ns l' cs).

(** Where, outside opaque content, the attributes differ, in document order:
    path of the element, its old and new attributes. *)
Fixpoint differing (p : list nat) (h h' : htree) {struct h} : list (list nat * attrs * attrs) :=
  match h, h' with
  | HElem _ _ l cs, HElem _ _ l' cs' =>
      ((if attrs_eq_dec l l' then [] else [(p, l, l')]) ++
       (if marked l then []
        else (fix go (k : nat) (cs cs' : list htree) : list (list nat * attrs * attrs) :=
                match cs, cs' with
                | c :: cs1, c' :: cs1' => differing (p ++ [k])%list c c' ++ go (S k) cs1 cs1'
                | _, _ => []
                end) 0 cs cs'))%list
  | _, _ => []
  end.

(** The patch names all new attributes in order; a value is left out only if
    the old element has it. *)
Definition sets_attrs (e : list nat * attrs * attrs) (p : patch) : Prop :=
  let '(q, l, l') := e in
  exists ch, p = PUpdateProps q ch /\
    Forall2 (fun c kv => pc_name c = PAttr (fst kv) /\
               match pc_value c with Some v => v = snd kv | None => In kv l end) ch l'.

Lemma restyled_refl h : distinct_attrs h -> restyled h h.
Proof.
  induction h as [s|s|tag ns l cs IH] using htree_ind'; intros HD; [constructor|constructor|].
  inversion HD as [| |? ? ? ? H1 H2]; subst. constructor; try done.
  clear HD H1. induction cs as [|c cs IHc]; constructor; apply Forall_cons in H2 as [H2 H3].
  - apply IH; [left|done].
  - apply IHc; [|done]. intros c' Hc'. apply IH. by right.
Qed.
Lemma same_but_attrs_restyled h : forall h', same_but_attrs h h' -> restyled h h'.
Proof.
  induction h as [s|s|tag ns l cs IH] using htree_ind'; intros h' HS;
    inversion HS as [| |? ? ? l' ? cs' N1 N2 M1 M2 HC|? ? ? l' ? N1 N2 M1 M2 HC]; subst.
  - constructor.
  - constructor.
  - constructor; try done.
    + change (marked l = marked l'). congruence.
    + change (is_opaque_props l) with (marked l). by rewrite M1.
    + clear -HC IH. induction HC as [|c c' cs cs' Hc HC IHc]; constructor.
      * apply IH; [left|done].
      * apply IHc. intros d Hd. apply IH. by right.
  - constructor; try done.
    + change (marked l = marked l'). congruence.
    + clear -HC. induction HC; constructor; [by apply restyled_refl|done].
Qed.

Definition flat3 (e : list nat * attrs * attrs) : path * (attrs * attrs) := let '(q, l, l') := e in (q, (l, l')).
Lemma differing_changes h : forall p h', map flat3 (differing p h h') = changes_at p h h'.
Proof.
  induction h as [s|s|tag ns l cs IH] using htree_ind'; intros p h'; [done|done|]. destruct h' as [tag' ns' l' cs'| |]; [|done|done].
  rewrite changes_at_elem. cbn [differing]. rewrite map_app. f_equal; [by destruct (attrs_eq_dec l l')|].
  change (is_opaque_props l) with (marked l). destruct (marked l); [done|]. generalize 0. revert cs'.
  induction cs as [|c cs IHc]; intros [|c' cs'] k; [done|done|done|]. cbn [changes_in]. rewrite map_app. f_equal.
  - apply IH. left.
  - apply IHc. intros d Hd. apply IH. by right.
Qed.
Lemma sets_attrs_update es : forall ps, Forall2 update_for (map flat3 es) ps -> Forall2 sets_attrs es ps.
Proof.
  induction es as [|[[q l] l'] es IH]; intros ps HF; cbn [map] in HF.
  - apply Forall2_nil_inv_l in HF as ->. constructor.
  - apply Forall2_cons_inv_l in HF as (p & ps' & (ch & Ep & Hs) & HF & ->). constructor; [|by apply IH].
    exists ch. split; [done|]. cbn [flat3 fst snd] in *. eapply Forall2_impl; [exact Hs|]. intros c [k v] [C1 C2]. split; [done|].
    destruct (pc_value c); [done|]. apply elem_of_list_In. by apply attr_get_elem.
Qed.

(** C41: exactly one [UpdateProps] for each element whose attributes differ, at
    its path; and applying them gives the new body, leaving all else alone.
    (The attributes of the old body are not considered, see F1: they are
    overwritten if the new body has any, otherwise they stay.) *)
Theorem attribute_changes : forall {H} (heqb : H -> H -> bool) hcomb h0 parse
    (old new : document) ob nb tag ns oats nats ts ts',
  (forall h, heqb h h = true) ->
  wf (doc_arena old) -> wf (doc_arena new) -> body old = Some ob -> body new = Some nb ->
  holds (doc_arena old) (HElem tag ns oats ts) ob ->
  holds (doc_arena new) (HElem tag ns nats ts') nb ->
  Forall2 same_but_attrs ts ts' ->
  NoDup (map fst oats) -> NoDup (map fst nats) -> marked oats = false -> marked nats = false ->
  exists ps d,
    diff heqb hcomb h0 old new = Val ps /\
    Forall2 sets_attrs (differing [0] (HElem tag ns [] ts) (HElem tag ns nats ts')) ps /\
    apply_patches parse old ps = (d, Val tt) /\
    wf (doc_arena d) /\ body d = Some ob /\
    holds (doc_arena d) (HElem tag ns (if Nat.eqb (length nats) 0 then oats else nats) ts') ob /\
    to_body_html d = to_body_html new /\
    length (doc_arena d) = length (doc_arena old) /\
    doc_root d = doc_root old /\ doc_doctype d = doc_doctype old /\
    (forall i, children (doc_arena d) i = children (doc_arena old) i /\ parent (doc_arena d) i = parent (doc_arena old) i) /\
    (forall i, ~ above (doc_arena old) ob i -> data (doc_arena d) i = data (doc_arena old) i).
Proof.
  intros H heqb hcomb h0 parse old new ob nb tag ns oats nats ts ts' HR WO WN BO BN HO HN HS N1 N2 M1 M2.
  apply holds_elem in HO as [DO HO]. apply holds_elem in HN as [DN HN].
  assert (Forall2 restyled ts ts') as HF by (eapply Forall2_impl; [exact HS|apply same_but_attrs_restyled]).
  destruct (diff_restyled heqb hcomb h0 HR new (doc_arena old) ob nb tag ns oats nats ts ts') as (ps & EP & HU); try done.
  destruct (apply_restyled parse old ob tag ns oats nats ts ts' ps) as (d & r & EA & BD & Hr & Ht & RD & R1 & R2 & Hh); try done.
  exists ps, d. split; [unfold diff; by rewrite BO, BN|]. split.
  { apply sets_attrs_update. by rewrite differing_changes. }
  split; [done|]. split; [apply RD|]. split; [done|]. split; [by destruct nats|]. split.
  { unfold to_body_html. rewrite BD, BN. apply holds_elem in Hh as [_ Hh].
    rewrite (serialize_inner_holds _ ts' ob), (serialize_inner_holds _ ts' nb); try done; apply RD. }
  split; [apply RD|]. split; [done|]. split; [done|]. split.
  { intros i. split; apply RD. }
  intros i Hi. apply RD. intros Hin. apply Hi. rewrite <- Hr.
  destruct (wf_chain _ WO (rid r)) as (lr & Hlr).
  destruct (pre_chain _ _ _ _ WO Ht Hin Hlr) as (l1 & k & Hk & E).
  exists k. split; [done|]. destruct l1 as [|x l1]; [left; by injection E as -> _|].
  right. injection E as _ ->. apply elem_of_app. right. left.
Qed.
Print Assumptions attribute_changes.

(** Attributes added, removed, changed and reordered, next to equal siblings and
    on an opaque element. *)
Definition restyle_ts : list htree :=
  [el_a "p" [ex_attr "class" "a"; ex_attr "id" "1"] [tx "x"]; el "p" [tx "x"];
   el "div" [el_a "i" [ex_attr "id" "k"] []; HComment "c"; el_a "b" [ex_attr "t" "1"] [tx "y"]];
   el_a "div" [ex_attr "data-hotmeal-opaque" ""] [el_a "q" [ex_attr "u" "v"] []]].
Definition restyle_us : list htree :=
  [el_a "p" [ex_attr "id" "1"; ex_attr "class" "a"] [tx "x"]; el_a "p" [ex_attr "class" "b"] [tx "x"];
   el "div" [el "i" []; HComment "c"; el_a "b" [ex_attr "t" "1"] [tx "y"]];
   el_a "div" [ex_attr "class" "z"; ex_attr "data-hotmeal-opaque" "1"] [el_a "q" [ex_attr "u" "v"] []]].
Definition restyle_old : document := mk_doc [] restyle_ts.
Definition restyle_new : document := with_body_attrs [ex_attr "class" "dark"] (mk_doc [el "title" []] restyle_us).

Lemma nodup_names (l : attrs) : qlist_eqb (qdedup (keys l)) (keys l) = true -> NoDup (map fst l).
Proof. intros HE. apply qlist_eqb_eq in HE. change (NoDup (keys l)). rewrite <- HE. apply qdedup_nodup. Qed.

Example attribute_changes_example :
  wf (doc_arena restyle_old) /\ wf (doc_arena restyle_new) /\
  body restyle_old = Some 2 /\ body restyle_new = Some 2 /\
  holds (doc_arena restyle_old) (HElem "body" NsHtml [] restyle_ts) 2 /\
  holds (doc_arena restyle_new) (HElem "body" NsHtml [ex_attr "class" "dark"] restyle_us) 2 /\
  Forall2 same_but_attrs restyle_ts restyle_us /\
  pdiff restyle_old restyle_new =
  Val [PUpdateProps [0] [mkPC (PAttr (mkQ None "" "class")) (Some "dark")];
       PUpdateProps [0; 0] [mkPC (PAttr (mkQ None "" "id")) (Some "1");
                            mkPC (PAttr (mkQ None "" "class")) None];
       PUpdateProps [0; 1] [mkPC (PAttr (mkQ None "" "class")) (Some "b")];
       PUpdateProps [0; 2; 0] [];
       PUpdateProps [0; 3] [mkPC (PAttr (mkQ None "" "class")) (Some "z");
                            mkPC (PAttr (mkQ None "" "data-hotmeal-opaque")) (Some "1")]].
Proof.
  split; [apply wf_check_sound; vm_compute; reflexivity|]. split; [apply wf_check_sound; vm_compute; reflexivity|].
  split; [reflexivity|]. split; [reflexivity|]. split; [vm_compute; tauto|]. split; [vm_compute; tauto|]. split.
  { repeat (first [apply Forall2_cons_2|apply Forall2_nil_2|apply sb_text|apply sb_comment
                  |apply sb_elem; [apply nodup_names; reflexivity|apply nodup_names; reflexivity|reflexivity|reflexivity|]
                  |apply sb_opaque; [apply nodup_names; reflexivity|apply nodup_names; reflexivity|reflexivity|reflexivity|]]).
    repeat constructor; try (intros HI; inversion HI). }
  vm_compute. reflexivity.
Qed.
