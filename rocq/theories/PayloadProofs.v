(** Where the content of patches comes from (C51). *)
From stdpp Require Import list_numbers.
From Verif Require Import Base Arena ArenaProofs Dom Matching Chawathe HtmlDiff MatchProofs DiffTotal.
Local Open Scope string_scope.

Ltac bnd E x E1 :=
  match type of E with obind ?e _ = _ => destruct e as [x| | |] eqn:E1; [|done..]; cbn [obind] in E end.

(** Node [i] lies in the subtree of [b]. *)
Inductive inside (a : arena dnode) (b : nat) : nat -> Prop :=
| inside_self : inside a b b
| inside_child i c : inside a b i -> c ∈ children a i -> inside a b c.

(** Content [c] is node [i], with some of its descendants left out. *)
Inductive piece (a : arena dnode) : nat -> icontent -> Prop :=
| piece_text i s : node_kind a i = Some (NText s) -> piece a i (ICText s)
| piece_comment i s : node_kind a i = Some (NComment s) -> piece a i (ICComment s)
| piece_elem i t l js cs : node_kind a i = Some (NElem t l) ->
    js `sublist_of` children a i -> Forall2 (piece a) js cs -> piece a i (ICElem t l cs).

(** What patch [p] carries is found in the subtree of [b]. *)
Definition drawn_from (a : arena dnode) (b : nat) (p : patch) : Prop :=
  match p with
  | PInsertElement _ t l cs _ => exists i, inside a b i /\ piece a i (ICElem t l cs)
  | PInsertText _ s _ => exists i, inside a b i /\ node_kind a i = Some (NText s)
  | PInsertComment _ s _ => exists i, inside a b i /\ node_kind a i = Some (NComment s)
  | PSetText _ s => exists i, inside a b i /\
      (node_kind a i = Some (NText s) \/ node_kind a i = Some (NComment s))
  | PUpdateProps _ ch => ch = [] \/ exists i t l, inside a b i /\ node_kind a i = Some (NElem t l) /\
      Forall2 (fun c kv => pc_name c = PAttr (fst kv) /\ (pc_value c = None \/ pc_value c = Some (snd kv))) ch l
  | POpaqueChanged _ s => exists i t l, inside a b i /\ node_kind a i = Some (NElem t l) /\
      Exists (fun kv => q_local (fst kv) = "data-hotmeal-opaque") l /\ serialize_inner_html a i = Some s
  | PRemove _ | PMove _ _ _ => True
  | PSetAttribute _ _ _ | PRemoveAttribute _ _ => False
  end.

Lemma props_diff_loop_drawn x od y : forall forced,
  Forall2 (fun c kv => pc_name c = PAttr (fst kv) /\ (pc_value c = None \/ pc_value c = Some (snd kv)))
    (props_diff_loop x od forced y) y.
Proof.
  induction y as [|[k v] y IH]; intros forced; [constructor|]. cbn. constructor; [|apply IH].
  cbn. split; [done|]. destruct (_ && _); auto.
Qed.

Lemma desc_f_inside a b : forall f i l, desc_f f a i = Some l -> inside a b i -> forall x, x ∈ l -> inside a b x.
Proof.
  induction f as [|f IH]; intros i l E Hi x Hx; [done|]. cbn in E.
  assert (forall cs l', (forall c, c ∈ cs -> inside a b c) ->
    (fix go (l : list nat) : option (list nat) :=
          match l with
          | [] => Some []
          | c :: l' => match desc_f f a c, go l' with
                       | Some x, Some y => Some (x ++ y)%list
                       | _, _ => None
                       end
          end) cs = Some l' -> forall x, x ∈ l' -> inside a b x) as HG.
  { induction cs as [|c cs IHc]; intros l' Hc E' y Hy; [injection E' as <-; by apply elem_of_nil in Hy|].
    destruct (desc_f f a c) as [u|] eqn:Eu; [|done]. destruct (_ cs) as [w|] eqn:Ew; [|done].
    injection E' as <-. apply elem_of_app in Hy as [Hy|Hy].
    - eapply IH; [exact Eu| |exact Hy]. apply Hc. left.
    - eapply (IHc w); [|reflexivity|exact Hy]. intros c' Hc'. apply Hc. by right. }
  destruct (_ (children a i)) as [u|] eqn:Eu; [|done]. injection E as <-.
  apply elem_of_cons in Hx as [->|Hx]; [done|]. eapply HG; [|exact Eu|exact Hx].
  intros c Hc. by eapply inside_child.
Qed.

Section Payload.
  Context {H : Type}.
  Variable heqb : H -> H -> bool.
  Variable hcomb : hkind -> option string -> list H -> H.
  Variable h0 : H.
  Variable new : document.
  Notation a := (doc_arena new).
  Variable nb : nat.
  (** Nodes of the body are elements, texts and comments. *)
  Hypothesis html_nodes : forall i, inside a nb i ->
    exists k, node_kind a i = Some k /\ k <> NDocument.

  Variable tb : dtree H hkind attrs string.
  Hypothesis Etb : mk_dtree hcomb h0 tdata_of a nb = Val tb.

  Lemma tb_fields : t_root tb = nb /\ t_kind tb = dkind tdata_of a /\ t_props tb = dprops tdata_of a /\
    t_text tb = dtext tdata_of a /\ t_children tb = children a /\
    t_opaque tb = (fun i => is_opaque_props (dprops tdata_of a i)).
  Proof.
    unfold mk_dtree in Etb. destruct (descendants a nb) eqn:E1; [|done]. destruct (post_order a nb); [|done].
    cbn in Etb. by injection Etb as <-.
  Qed.
  Lemma tb_iter i : i ∈ t_iter tb -> inside a nb i.
  Proof.
    unfold mk_dtree in Etb. destruct (descendants a nb) eqn:E1; [|done]. destruct (post_order a nb); [|done].
    cbn in Etb. injection Etb as <-. cbn. intros Hi. eapply desc_f_inside; [exact E1|constructor|done].
  Qed.

  Lemma tb_elem i tag ns : inside a nb i -> t_kind tb i = KElem tag ns ->
    node_kind a i = Some (NElem tag (t_props tb i)).
  Proof.
    intros Hi. destruct tb_fields as (_ & -> & -> & _). unfold dkind, dprops, node_kind.
    destruct (data a i) as [[k n]|]; [|done]. destruct k; cbn; try done. by intros [= -> ->].
  Qed.
  Lemma tb_text i : inside a nb i -> t_kind tb i = KText ->
    exists s, t_text tb i = Some s /\ node_kind a i = Some (NText s).
  Proof.
    intros Hi. destruct tb_fields as (_ & -> & _ & -> & _). unfold dkind, dtext, node_kind.
    destruct (data a i) as [[k n]|]; [|done]. destruct k; cbn; try done. eauto.
  Qed.
  Lemma tb_comment i : inside a nb i -> t_kind tb i = KComment ->
    exists s, t_text tb i = Some s /\ node_kind a i = Some (NComment s).
  Proof.
    intros Hi. destruct (html_nodes i Hi) as (k & Ek & Nk). revert Ek.
    destruct tb_fields as (_ & -> & _ & -> & _). unfold dkind, dtext, node_kind.
    destruct (data a i) as [[k' n]|]; [|done]. cbn. intros [= ->]. destruct k; cbn; try done. eauto.
  Qed.
  Lemma tb_some_text i s : inside a nb i -> t_text tb i = Some s ->
    node_kind a i = Some (NText s) \/ node_kind a i = Some (NComment s).
  Proof.
    intros Hi. destruct tb_fields as (_ & _ & _ & -> & _). unfold dtext, node_kind.
    destruct (data a i) as [[k' n]|]; [|done]. destruct k'; cbn; try done; intros [= ->]; auto.
  Qed.

  Lemma extract_piece skip : forall f b cs, inside a nb b -> extract_children f tb skip b = Val cs ->
    exists js, js `sublist_of` children a b /\ Forall2 (piece a) js cs.
  Proof.
    induction f as [|f IH]; intros b cs Hb E; [done|]. cbn in E.
    destruct tb_fields as (_ & _ & _ & _ & Ec & _).
    assert (forall c, c ∈ t_children tb b -> inside a nb c) as Hc.
    { rewrite Ec. intros c Hc. by eapply inside_child. }
    rewrite <- Ec. clear Ec. revert cs E Hc. generalize (t_children tb b) as l.
    induction l as [|c l IHl]; intros cs E Hc.
    { injection E as <-. exists []. split; [apply sublist_nil_l|constructor]. }
    assert (inside a nb c) as Hic by (apply Hc; left).
    destruct (skip c).
    { destruct (IHl cs E) as (js & Hs & HF); [intros; apply Hc; by right|]. exists js. split; [by apply sublist_cons|done]. }
    destruct (match t_kind tb c with
              | KElem tag _ => let! cs := extract_children f tb skip c in Val (ICElem tag (t_props tb c) cs)
              | KText => Val (ICText match t_text tb c with | Some s => s | None => EmptyString end)
              | KComment => Val (ICComment match t_text tb c with | Some s => s | None => EmptyString end)
              end) as [x| | |] eqn:Ex; try done. cbn in E.
    destruct (_ l) as [xs| | |] eqn:Exs; try done. cbn in E. injection E as <-.
    destruct (IHl xs eq_refl) as (js & Hs & HF); [intros; apply Hc; by right|].
    exists (c :: js). split; [by apply sublist_skip|]. constructor; [|done].
    destruct (t_kind tb c) as [tag ns| |] eqn:Ek.
    - destruct (extract_children f tb skip c) as [ys| | |] eqn:Ey; try done. cbn in Ex. injection Ex as <-.
      destruct (IH c ys Hic Ey) as (js' & Hs' & HF'). eapply piece_elem; [|exact Hs'|exact HF'].
      eapply tb_elem; done.
    - destruct (tb_text c Hic Ek) as (s & Es & En). rewrite Es in Ex. injection Ex as <-. by constructor.
    - destruct (tb_comment c Hic Ek) as (s & Es & En). rewrite Es in Ex. injection Ex as <-. by constructor.
  Qed.

  (** What the edit operations carry. *)
  Definition op_drawn (op : hop) : Prop :=
    match op with
    | UpdateProperties _ _ ch => drawn_from a nb (PUpdateProps [] ch)
    | Insert b _ _ k => inside a nb b /\ k = t_kind tb b
    | SetText _ _ s => drawn_from a nb (PSetText [] s)
    | Delete _ | Move _ _ _ _ => True
    end.

  Lemma reparent_drawn : forall l par pos s s', reparent_loop l par pos s = Val s' ->
    Forall (drawn_from a nb) (cs_out s) -> Forall (drawn_from a nb) (cs_out s').
  Proof.
    induction l as [|[i c] l IH]; intros par pos s s' E HF; [by injection E as <-|]. cbn [reparent_loop] in E.
    bnd E from E1. bnd E sh1 E2. bnd E a2 E3. bnd E to E4.
    eapply IH; [exact E|]. cbn. apply Forall_app. split; [done|]. by repeat constructor.
  Qed.

  Lemma convert_op_drawn ins s op s' : convert_op tb ins s op = Val s' -> op_drawn op ->
    Forall (drawn_from a nb) (cs_out s) -> Forall (drawn_from a nb) (cs_out s').
  Proof.
    intros E Ho HF. destruct op as [x y ch|b pb pos kind|x|x b pb pos|x y t]; cbn [convert_op] in E.
    - bnd E p E1. injection E as <-. cbn.
      apply Forall_app. split; [done|]. constructor; [exact Ho|constructor].
    - destruct Ho as [Hb ->]. bnd E sp E1. destruct (new_node _ _) as [a1 n]. bnd E shs E2. destruct shs as [sh1 slot].
      bnd E at_ E3. bnd E p Ep.
      injection E as <-. cbn. apply Forall_app. split; [done|]. constructor; [|constructor].
      destruct (t_kind tb b) as [tag ns| |] eqn:Ek.
      + bnd Ep cs Ecs.
        injection Ep as <-. exists b. split; [done|]. destruct (extract_piece _ _ _ _ Hb Ecs) as (js & Hs & HP).
        eapply piece_elem; [|exact Hs|exact HP]. by eapply tb_elem.
      + injection Ep as <-. destruct (tb_text b Hb Ek) as (t & -> & En). exists b. done.
      + injection Ep as <-. destruct (tb_comment b Hb Ek) as (t & -> & En). exists b. done.
    - bnd E p E1. bnd E p' E2. injection E as <-. cbn.
      apply Forall_app. split; [done|]. by repeat constructor.
    - bnd E sp E1. bnd E anc E2. bnd E s1 E3. bnd E p E4. bnd E shs E5. destruct shs as [sh2 slot]. bnd E to E6.
      injection E as <-. cbn.
      apply Forall_app. split; [|by repeat constructor]. destruct anc; [|by injection E3 as <-].
      bnd E3 par E7. by eapply reparent_drawn.
    - bnd E p E1. injection E as <-. cbn.
      apply Forall_app. split; [done|]. constructor; [exact Ho|constructor].
  Qed.

  Lemma convert_loop_drawn ins : forall ops s s', convert_loop tb ins s ops = Val s' -> Forall op_drawn ops ->
    Forall (drawn_from a nb) (cs_out s) -> Forall (drawn_from a nb) (cs_out s').
  Proof.
    induction ops as [|op ops IH]; intros s s' E Ho HF; [by injection E as <-|]. cbn in E. inversion Ho; subst.
    destruct (convert_op tb ins s op) as [s1| | |] eqn:E1; try done. cbn in E. eapply IH; [exact E|done|].
    by eapply convert_op_drawn.
  Qed.

  Variable ta : dtree H hkind attrs string.
  Variable m : matching.
  Hypothesis Em : html_matching heqb ta tb = Val m.

  Lemma pairs_inside x y : (x, y) ∈ m_pairs m -> inside a nb y.
  Proof.
    unfold html_matching in Em.
    destruct (compute_matching _ _ _ _ ta tb) as [m0| | |] eqn:E0; try done. cbn in Em. injection Em as Em'.
    destruct tb_fields as (Er & _ & _ & _ & Ec & _).
    assert (forall x y, (x, y) ∈ m_pairs m0 -> inside a nb y) as H0.
    { intros x' y' Hp. apply (reach_pairs (fun _ b => inside a nb b) m0 x' y'); [|exact Hp].
      eapply (compute_matching_reach heqb hkind_eqb props_sim diff_config ta tb
        (fun _ b => inside a nb b) (fun _ b => inside a nb b) (fun _ b => inside a nb b)); [| | | | | | |exact E0].
      - rewrite Er. constructor.
      - intros u v p q Hv _ _ _ Hq. rewrite Ec in Hq. by eapply inside_child.
      - done.
      - intros u v p q Hv _ _ Hpq. apply combine_elem in Hpq as [_ Hq]. rewrite Ec in Hq. by eapply inside_child.
      - done.
      - done.
      - intros u v _ _ _ [Hv|(pa & pb & _ & Hp' & Hv)]; [by apply tb_iter|]. rewrite Ec in Hv. by eapply inside_child. }
    rewrite <- Em'. destruct (_ && _); [|apply H0]. unfold m_add. cbn. intros Hp.
    apply elem_of_app in Hp as [Hp|Hp]; [by eapply H0|].
    apply elem_of_list_singleton in Hp as [= -> ->]. rewrite Er. constructor.
  Qed.

  Lemma script_drawn : Forall op_drawn (html_edit_script ta tb m).
  Proof.
    unfold html_edit_script, generate_edit_script, edit_script_with. rewrite !Forall_app.
    split; [|split; [|split]]; apply Forall_forall; intros op Hop; apply elem_of_list_In, in_flat_map in Hop as (z & Hz & Hop);
      apply elem_of_list_In in Hz, Hop.
    - destruct z as [x y]. apply pairs_inside in Hz. unfold phase1 in Hop. destruct (_ || _); [by apply elem_of_nil in Hop|].
      apply elem_of_app in Hop as [Hop|Hop].
      + destruct (otext_eqb _ _ _); [by apply elem_of_nil in Hop|]. destruct (t_text tb y) as [s|] eqn:Es; [|by apply elem_of_nil in Hop].
        apply elem_of_list_singleton in Hop as ->. exists y. split; [done|]. by apply tb_some_text.
      + destruct (_ && _) eqn:Ee; [by apply elem_of_nil in Hop|]. cbv zeta in Hop.
        destruct (_ || _) eqn:Eo; [|by apply elem_of_nil in Hop].
        apply elem_of_list_singleton in Hop as ->. cbn.
        destruct (html_nodes y Hz) as (k & Ek & _). destruct tb_fields as (_ & _ & Ep & _).
        unfold node_kind in Ek. destruct (data a y) as [[k' n]|] eqn:Ed; [|done]. injection Ek as ->.
        assert (t_props tb y = td_props (tdata_of (mkD k n))) as E1 by (rewrite Ep; unfold dprops; by rewrite Ed).
        rewrite E1. destruct k as [|tag l|s|s]; try (left; reflexivity).
        right. exists y, tag, l. split; [done|]. split; [unfold node_kind; by rewrite Ed|]. apply props_diff_loop_drawn.
    - apply tb_iter in Hz. unfold phase2 in Hop. destruct (contains_b m z); [by apply elem_of_nil in Hop|].
      destruct (t_parent tb z); [|by apply elem_of_nil in Hop]. destruct (mem _ _); [by apply elem_of_nil in Hop|].
      apply elem_of_list_singleton in Hop as ->. done.
    - destruct z as [x y]. unfold phase4 in Hop. repeat (case_match; try (by apply elem_of_nil in Hop));
        by apply elem_of_list_singleton in Hop as ->.
    - unfold phase5 in Hop. repeat (case_match; try (by apply elem_of_nil in Hop));
        by apply elem_of_list_singleton in Hop as ->.
  Qed.

  Lemma opaque_contents_drawn : forall pairs oc, opaque_contents heqb new ta tb pairs = Val oc ->
    (forall x y, (x, y) ∈ pairs -> inside a nb y) ->
    forall x s, (x, s) ∈ oc -> drawn_from a nb (POpaqueChanged [] s).
  Proof.
    induction pairs as [|[u v] pairs IH]; intros oc E Hp x s Hx; cbn in E.
    { injection E as <-. by apply elem_of_nil in Hx. }
    assert (forall x y, (x, y) ∈ pairs -> inside a nb y) as Hp' by (intros ? ? ?; eapply Hp; by right).
    destruct (t_opaque tb v) eqn:Eo; cbn [negb] in E; [|by eapply IH].
    destruct (heqb _ _); [by eapply IH|].
    destruct (serialize_inner_html a v) as [w|] eqn:Ew; [|done]. cbn in E.
    destruct (opaque_contents heqb new ta tb pairs) as [r| | |] eqn:Er; try done. cbn in E. injection E as <-.
    apply elem_of_cons in Hx as [[= -> ->]|Hx]; [|by eapply (IH r)].
    assert (inside a nb v) as Hv by (eapply Hp; left).
    destruct tb_fields as (_ & _ & _ & _ & _ & Eop). rewrite Eop in Eo. unfold dprops in Eo.
    destruct (data a v) as [[k n]|] eqn:Ed; [|done]. destruct k as [|tag l|?|?]; try done.
    exists v, tag, l. split; [done|]. split; [unfold node_kind; by rewrite Ed|]. split; [|done].
    cbn in Eo. unfold is_opaque_props in Eo. apply existsb_exists in Eo as (kv & Hkv & Ekv).
    apply Exists_exists. exists kv. split; [by apply elem_of_list_In|]. by apply String.eqb_eq in Ekv.
  Qed.

  Lemma opaque_patches_drawn sh : forall oc ps, opaque_patches sh oc = Val ps ->
    (forall x s, (x, s) ∈ oc -> drawn_from a nb (POpaqueChanged [] s)) -> Forall (drawn_from a nb) ps.
  Proof.
    induction oc as [|[x s] oc IH]; intros ps E HO; cbn [opaque_patches] in E; [by injection E as <-|].
    bnd E p E1. bnd E ps' Ep. injection E as <-.
    constructor; [exact (HO x s ltac:(left))|]. eapply IH; [reflexivity|]. intros ? ? ?. eapply HO. by right.
  Qed.
End Payload.

Section Inserts.
  Variable a : arena dnode.
  Variable nb : nat.
  Hypothesis html_nodes : forall i, inside a nb i ->
    exists k, node_kind a i = Some k /\ k <> NDocument.

  Lemma insert_content_piece : forall f i x, inside a nb i -> insert_content f a i = Some x ->
    exists c, x = [c] /\ piece a i c.
  Proof.
    induction f as [|f IH]; intros i x Hi E; [done|]. destruct (html_nodes i Hi) as (k & Ek & Nk).
    cbn in E. rewrite Ek in E. destruct k as [|t l|s|s]; [done| | |].
    2,3: injection E as <-; eexists; split; [done|by constructor].
    assert (forall cs l', (forall c, c ∈ cs -> inside a nb c) ->
      (fix go (cs : list nat) : option (list icontent) :=
                 match cs with
                 | [] => Some []
                 | c :: cs' => match insert_content f a c, go cs' with
                               | Some x, Some y => Some (x ++ y)%list
                               | _, _ => None
                               end
                 end) cs = Some l' -> Forall2 (piece a) cs l') as HG.
    { induction cs as [|c cs IHc]; intros l' Hc E'; [injection E' as <-; constructor|].
      destruct (insert_content f a c) as [u|] eqn:Eu; [|done]. destruct (_ cs) as [w|] eqn:Ew; [|done].
      injection E' as <-. apply IH in Eu as (c' & -> & Hp); [|apply Hc; left]. cbn. constructor; [done|].
      apply IHc; [|reflexivity]. intros ? ?. apply Hc. by right. }
    destruct (_ (children a i)) as [u|] eqn:Eu; [|done]. injection E as <-. eexists. split; [done|].
    eapply piece_elem; [done|reflexivity|]. apply HG; [|exact Eu]. intros c Hc. by eapply inside_child.
  Qed.

  Lemma insert_all_drawn : forall l pos ps, (forall c, c ∈ l -> inside a nb c) -> insert_all a l pos = Val ps ->
    Forall (drawn_from a nb) ps.
  Proof.
    induction l as [|c l IH]; intros pos ps Hl E; cbn in E; [by injection E as <-|].
    destruct (create_insert_patch a c pos) as [p| | |] eqn:Ep; try done. cbn in E.
    destruct (insert_all a l (S pos)) as [ps'| | |] eqn:Eps; try done. cbn in E. injection E as <-.
    assert (inside a nb c) as Hc by (apply Hl; left).
    constructor; [|eapply IH; [|exact Eps]; intros; apply Hl; by right].
    unfold create_insert_patch in Ep. destruct (html_nodes c Hc) as (k & Ek & Nk). rewrite Ek in Ep.
    destruct k as [|t at_|s|s]; [done| | |].
    - destruct (insert_content _ a c) as [x|] eqn:Ex; [|done]. cbn in Ep.
      destruct (insert_content_piece _ _ _ Hc Ex) as (y & -> & Hy).
      inversion Hy as [|? ? E1|? t' l' js cs E1 Hs HF E2]; subst; try done. injection Ep as <-.
      rewrite Ek in E1. injection E1 as -> ->. by exists c.
    - injection Ep as <-. by exists c.
    - injection Ep as <-. by exists c.
  Qed.
End Inserts.

Lemma diff_drawn {H} (heqb : H -> H -> bool) hcomb h0 old new nb ps :
  (forall i, inside (doc_arena new) nb i -> exists k, node_kind (doc_arena new) i = Some k /\ k <> NDocument) ->
  body new = Some nb -> diff heqb hcomb h0 old new = Val ps ->
  Forall (drawn_from (doc_arena new) nb) ps.
Proof.
  intros HN Eb E. unfold diff in E. rewrite Eb in E. destruct (body old) as [ob|].
  2:{ eapply insert_all_drawn; [exact HN| |exact E]. intros c Hc. eapply inside_child; [constructor|done]. }
  unfold diff_bodies in E. bnd E t Et. bnd E ta Eta. bnd E tb Etb. bnd E m Em. bnd E oc Eo. bnd E qs Ec.
  assert (Forall (drawn_from (doc_arena new) nb) qs) as Hq.
  { unfold convert_ops in Ec. bnd Ec sh Esh. bnd Ec s El. injection Ec as <-.
    eapply convert_loop_drawn; [exact HN|exact Etb|exact El| |constructor]. by eapply script_drawn. }
  assert (forall sh os, opaque_patches sh oc = Val os -> Forall (drawn_from (doc_arena new) nb) os) as HO.
  { intros sh os Eos. eapply opaque_patches_drawn; [exact Eos|]. eapply opaque_contents_drawn; [exact Etb|exact Eo|].
    intros x y Hxy. by eapply pairs_inside. }
  destruct oc as [|p oc]; [by injection E as <-|].
  bnd E sh Esh. bnd E os Eos. injection E as <-. apply Forall_app. split; [done|]. by eapply HO.
Qed.

Lemma proper_inside d b : proper d -> body d = Some b ->
  forall i, inside (doc_arena d) b i -> exists k, node_kind (doc_arena d) i = Some k /\ k <> NDocument.
Proof.
  intros PD Eb i Hi. destruct Hi as [|i c Hi Hc].
  - unfold body, body_in in Eb. apply find_some in Eb as [_ Eb].
    unfold has_tag in Eb. destruct (node_kind _ b) as [[]|]; try done. by eexists.
  - destruct (data_some (doc_arena d) c) as (x & Ex).
    { eapply wf_child_lt; [apply (pp_wf d PD)|exact Hc]. }
    exists (d_kind x). unfold node_kind. rewrite Ex. split; [done|]. intros Ek.
    eapply (pp_docs d PD c i); [by apply (wf_pc _ (pp_wf d PD))|]. unfold node_kind. by rewrite Ex, Ek.
Qed.
