(** Round trips: what the whole conversion produces, applied to the old document. *)
From stdpp Require Import list_numbers relations.
From Verif Require Import Base Arena Matching Chawathe Dom HtmlDiff
  AttrProofs MatchProofs ArenaProofs ArenaOps TreeProofs DtreeProofs ScriptProofs DomTree BuildProofs
  ApplyProofs FrameProofs ShadowProofs SimProofs Applier ConvProofs RoundProofs Instances.

(** ** Putting it together *)

Fixpoint hall (P : hkind -> attrs -> Prop) (h : htree) : Prop :=
  match h with
  | HElem tag ns ats cs =>
      P (KElem tag ns) ats /\
      (fix all (l : list htree) : Prop := match l with [] => True | c :: l' => hall P c /\ all l' end) cs
  | HText _ => P KText []
  | HComment _ => P KComment []
  end.

Definition hkind_of (h : htree) : hkind := td_kind (tdata_of_h h).
Definition hattrs (h : htree) : attrs := td_props (tdata_of_h h).

Lemma hall_eq P h : hall P h <-> P (hkind_of h) (hattrs h) /\ (forall c, c ∈ hchildren h -> hall P c).
Proof.
  destruct h as [tag ns ats cs|sx|sx]; cbn.
  - assert ((fix all (l : list htree) : Prop := match l with [] => True | c :: l' => hall P c /\ all l' end) cs
      <-> forall c, c ∈ cs -> hall P c) as ->; [|done].
    induction cs as [|c cs IH]; [split; [intros _ c Hc; by apply elem_of_nil in Hc|done]|].
    rewrite IH. split.
    + intros [H1 H2] c' Hc. apply elem_of_cons in Hc as [->|Hc]; auto.
    + intros HH. split; [apply HH; left|]. intros c' Hc. apply HH. by right.
  - split; [|by intros []]. intros HH. split; [done|]. intros c Hc. by apply elem_of_nil in Hc.
  - split; [|by intros []]. intros HH. split; [done|]. intros c Hc. by apply elem_of_nil in Hc.
Qed.

Lemma hall_impl (P Q : hkind -> attrs -> Prop) h : (forall k l, P k l -> Q k l) -> hall P h -> hall Q h.
Proof.
  intros HI. induction h as [sx|sx|tag ns ats cs IH] using htree_ind'; rewrite !hall_eq; intros [H1 H2];
    (split; [by apply HI|]); cbn [hchildren] in *; intros c Hc; auto; by apply elem_of_nil in Hc.
Qed.

(** Elements marked by [op] have no content. *)
Fixpoint hollow (op : attrs -> bool) (h : htree) : Prop :=
  match h with
  | HElem tag ns ats cs =>
      (op ats = true -> cs = []) /\
      (fix all (l : list htree) : Prop := match l with [] => True | c :: l' => hollow op c /\ all l' end) cs
  | _ => True
  end.

Lemma hollow_eq op h : hollow op h <-> (op (hattrs h) = true -> hchildren h = []) /\ (forall c, c ∈ hchildren h -> hollow op c).
Proof.
  destruct h as [tag ns ats cs|sx|sx]; cbn.
  - assert ((fix all (l : list htree) : Prop := match l with [] => True | c :: l' => hollow op c /\ all l' end) cs
      <-> forall c, c ∈ cs -> hollow op c) as ->; [|done].
    induction cs as [|c cs IH]; [split; [intros _ c Hc; by apply elem_of_nil in Hc|done]|].
    rewrite IH. split.
    + intros [H1 H2] c' Hc. apply elem_of_cons in Hc as [->|Hc]; auto.
    + intros HH. split; [apply HH; left|]. intros c' Hc. apply HH. by right.
  - split; [|done]. intros HH. split; [done|]. intros c Hc. by apply elem_of_nil in Hc.
  - split; [|done]. intros HH. split; [done|]. intros c Hc. by apply elem_of_nil in Hc.
Qed.

Lemma hollow_impl (op op' : attrs -> bool) h : (forall l, op' l = true -> op l = true) -> hollow op h -> hollow op' h.
Proof.
  intros HI. induction h as [sx|sx|tag ns ats cs IH] using htree_ind'; [done|done|].
  rewrite !hollow_eq. cbn [hchildren]. intros [H1 H2]. split; [by intros E; apply H1, HI|]. intros c Hc. auto.
Qed.

(** The nodes below a node hold subtrees. *)
Definition inherited (Q : htree -> Prop) : Prop := forall h c, Q h -> c ∈ hchildren h -> Q c.

Lemma inherited_hall P : inherited (hall P).
Proof. intros h c Hh Hc. apply hall_eq in Hh as [_ Hh]. by apply Hh. Qed.
Lemma inherited_hollow op : inherited (hollow op).
Proof. intros h c Hh Hc. apply hollow_eq in Hh as [_ Hh]. by apply Hh. Qed.

Lemma holds_below_gen Q (a : arena dnode) r : inherited Q -> is_tree a r -> forall h, holds a h (rid r) -> Q h ->
  forall y, y ∈ preorder r -> exists h', holds a h' y /\ Q h'.
Proof.
  intros IQ. induction r as [i rs IH] using rose_ind'. intros Ht h Hh Hp y Hy. cbn [rid] in *.
  apply is_tree_eq in Ht as [Hc Hts]. cbn [preorder] in Hy. apply elem_of_cons in Hy as [->|Hy]; [by exists h|].
  apply elem_flat_map in Hy as (u & Hu & Hy).
  pose proof (holds_children _ _ _ Hh) as Hl. rewrite Hc in Hl.
  destruct (Forall2_in_r _ _ _ (rid u) Hl) as (h' & Hh' & Hhu). { by apply elem_of_list_fmap_1. }
  apply (IH u Hu (Hts u Hu) h' Hhu (IQ h h' Hp Hh') y Hy).
Qed.

Lemma holds_below_list_gen Q (a : arena dnode) r ts : inherited Q -> is_tree a r ->
  holds_list a ts (children a (rid r)) -> (forall h, h ∈ ts -> Q h) ->
  forall y, y ∈ preorder r -> y <> rid r -> exists h', holds a h' y /\ Q h'.
Proof.
  destruct r as [i rs]. intros IQ Ht Hh Hp y Hy Hne. cbn [rid] in *.
  apply is_tree_eq in Ht as [Hc Hts]. cbn [preorder] in Hy. apply elem_of_cons in Hy as [->|Hy]; [done|].
  apply elem_flat_map in Hy as (u & Hu & Hy). rewrite Hc in Hh.
  destruct (Forall2_in_r _ _ _ (rid u) Hh) as (h' & Hh' & Hhu). { by apply elem_of_list_fmap_1. }
  by apply (holds_below_gen Q a u IQ (Hts u Hu) h' Hhu (Hp h' Hh') y Hy).
Qed.

Lemma tholds_below_gen Q t k ts : inherited Q -> built t k ts -> (forall h, h ∈ ts -> Q h) ->
  forall x, x < length t -> x <> 0 -> exists h, tholds t h x /\ Q h.
Proof.
  intros IQ BT Hts.
  set (D := [mkNode (mkD NDocument NsHtml) None []] : arena dnode). assert (0 < length D) as BL by (simpl; lia).
  enough (forall x, x < length t -> exists hs, tholds_list t hs (children t x) /\ (forall h, h ∈ hs -> Q h) /\
            (x <> 0 -> exists h, tholds t h x /\ Q h)) as HH.
  { intros x Hx. destruct (HH x Hx) as (_ & _ & _ & ?). done. }
  apply (start_ind t k ts D 0 BT BL).
  - exists ts. split; [apply BT|]. done.
  - intros x p i Hx H0 Hp Hpl Hi (hs & Ht & Hall & _).
    destruct (Forall2_lookup_r _ _ _ i x Ht Hi) as (h & Hh & Htx).
    pose proof (Hall h (elem_of_list_lookup_2 _ _ _ Hh)) as Hph.
    exists (hchildren h). split; [by apply tholds_eq in Htx as [_ ?]|].
    split; [intros c Hc; by apply (IQ h)|]. intros _. by exists h.
Qed.

Lemma holds_below_list P (a : arena dnode) r ts : is_tree a r -> holds_list a ts (children a (rid r)) ->
  (forall h, h ∈ ts -> hall P h) ->
  forall y, y ∈ preorder r -> y <> rid r -> exists h', holds a h' y /\ hall P h'.
Proof. apply holds_below_list_gen, inherited_hall. Qed.

Lemma tholds_below P t k ts : built t k ts -> (forall h, h ∈ ts -> hall P h) ->
  forall x, x < length t -> x <> 0 -> exists h, tholds t h x /\ hall P h.
Proof. apply tholds_below_gen, inherited_hall. Qed.

Lemma built_tree t k ts : built t k ts ->
  exists r, rid r = 0 /\ is_tree t r /\ forall x, x ∈ preorder r <-> x < length t.
Proof.
  intros BT. pose proof (bt_wf _ _ _ BT) as W. destruct (tree_exists t 0 W) as (r & Hr & Ht).
  exists r. split; [done|]. split; [done|]. intros x. split.
  - apply (preorder_lt t r x W Ht). rewrite Hr. eapply data_lt. apply BT.
  - intros Hx. destruct (bt_all _ _ _ BT x Hx) as (l & Hc & Hin).
    apply (chain_pre t r x l W Ht Hc). rewrite Hr. apply elem_of_cons. tauto.
Qed.

Lemma slot_get_b2s pairs y x : NoDup (map snd pairs) ->
  slot_get (b2s_of pairs) y = Some x <-> (x, y) ∈ pairs.
Proof.
  unfold b2s_of.
  enough (forall sl, NoDup (map snd pairs) ->
    slot_get (fold_left (fun s p => slot_set s (snd p) (fst p)) pairs sl) y = Some x <->
    (x, y) ∈ pairs \/ (y ∉ map snd pairs /\ slot_get sl y = Some x)) as HH.
  { intros Hnd. rewrite (HH [] Hnd). simpl. split; [intros [?|[_ ?]]; done|by left]. }
  induction pairs as [|[a b] pairs IH]; intros sl Hnd; cbn [fold_left map fst snd].
  - split; [|by intros [?%elem_of_nil|[_ ?]]]. intros HH. right. split; [apply not_elem_of_nil|done].
  - cbn [map snd] in Hnd. apply NoDup_cons in Hnd as [Hb Hnd]. rewrite (IH _ Hnd), slot_get_set.
    rewrite !elem_of_cons.
    assert ((x, y) ∈ pairs -> y ∈ map snd pairs) as Hin.
    { intros Hp. apply elem_of_list_fmap. by exists (x, y). }
    destruct (Nat.eqb_spec b y) as [->|Hne].
    + split.
      * intros [?|[_ [= ->]]]; [by left; right|by left; left].
      * intros [[[= ->]|?]|[? ?]]; [by right|by left|tauto].
    + split.
      * intros [?|[? ?]]; [by left; right|right]. split; [|done]. intros [?|?]; [congruence|done].
      * intros [[[= ? ?]|?]|[? ?]]; [congruence|by left|right]. tauto.
Qed.

Lemma opaque_none {H} (t : dtree H hkind attrs string) r : presents t r ->
  (forall x, x ∈ t_iter t -> t_opaque t x = true -> t_children t x = []) -> opaque_descendants t = [].
Proof.
  intros PR Hn. unfold opaque_descendants.
  assert (forall x, x ∈ t_iter t -> t_opaque t x = true -> t_desc t x = [x]) as Hd.
  { intros x Hx Ho. specialize (Hn x Hx Ho). apply (pr_iter_subt t r PR) in Hx as (u & Hu & <-).
    rewrite (pr_children t r PR u Hu) in Hn. rewrite (pr_desc t r PR u Hu).
    destruct u as [i rs]. cbn [rsub rid] in *. apply map_eq_nil in Hn as ->. done. }
  clear Hn. induction (t_iter t) as [|x l IH]; [done|]. cbn [flat_map].
  rewrite IH by (intros y Hy; apply Hd; by right). rewrite app_nil_r.
  destruct (t_opaque t x) eqn:Ex; [|done]. rewrite (Hd x (elem_of_list_here _ _) Ex). cbn [List.filter].
  by rewrite Nat.eqb_refl.
Qed.

(** An element or text that the round trip handles: not a second body, names of
    attributes distinct... *)
Definition sound (bk k : hkind) (l : attrs) : Prop := k <> bk /\ NoDup (keys l).
(** ... and not opaque. *)
Definition plain (bk k : hkind) (l : attrs) : Prop :=
  k <> bk /\ NoDup (keys l) /\ is_opaque_props l = false.

Lemma plain_sound bk h : hall (plain bk) h -> hall (sound bk) h.
Proof. apply hall_impl. intros k l (? & ? & _). done. Qed.
Lemma plain_hollow bk h : hall (plain bk) h -> hollow is_opaque_props h.
Proof.
  induction h as [sx|sx|tag ns ats cs IH] using htree_ind'; [done|done|]. rewrite hall_eq, hollow_eq.
  intros [(_ & _ & Ho) Hc].
  rewrite Ho. split; [done|]. auto.
Qed.

Local Notation ph1 := (phase1 String.eqb props_empty props_diff any_different (@length prop_change) (@length attr)).

(** ** Moves that never put a node below itself *)

(** The parents before the first Move: the old ones for the old nodes, the new
    ones for the inserted nodes. *)
Definition init_parents {H} (t : arena tdata) (tb : dtree H hkind attrs string) (m : matching) : parents :=
  fun k => match k with
           | inl x => match parent t x with Some p => Some (inl p) | None => None end
           | inr y => match t_parent tb y with Some p => Some (img m p) | None => None end
           end.

Definition is_move (op : hop) : bool := match op with Move _ _ _ _ => true | _ => false end.

Lemma swap_free_skip m AP l1 l2 : (forall op, op ∈ l1 -> is_move op = false) ->
  swap_free m AP (l1 ++ l2) -> swap_free m AP l2.
Proof.
  induction l1 as [|op l1 IH]; intros Hn; [done|]. cbn.
  pose proof (Hn op (elem_of_list_here _ _)) as E.
  assert (forall o, o ∈ l1 -> is_move o = false) as Hn' by (intros o Ho; apply Hn; by right).
  destruct op; try done; by apply IH.
Qed.

Lemma swap_free_app m l1 : forall AP l2, swap_free m AP (l1 ++ l2) -> swap_free m AP l1.
Proof.
  induction l1 as [|op l1 IH]; intros AP l2; [done|]. cbn.
  destruct op; try (apply IH). intros [? ?]. split; [done|]. by eapply IH.
Qed.

Lemma ph1_no_move {H} (ta tb : dtree H hkind attrs string) l op :
  op ∈ flat_map (ph1 ta tb [] []) l -> is_move op = false.
Proof.
  intros Hop. apply elem_flat_map in Hop as ([x y] & _ & Hop). unfold phase1 in Hop.
  cbn [mem existsb orb] in Hop. apply elem_of_app in Hop as [Hop|Hop].
  all: repeat match type of Hop with context [if ?c then _ else _] => destruct c end.
  all: try match type of Hop with context [match ?c with Some _ => _ | None => _ end] => destruct c end.
  all: try (by apply elem_of_nil in Hop); by apply elem_of_list_singleton in Hop as ->.
Qed.

Lemma phase2_no_move {H} (tb : dtree H hkind attrs string) m l op :
  op ∈ flat_map (phase2 (C:=list prop_change) tb m []) l -> is_move op = false.
Proof.
  intros Hop. apply elem_flat_map in Hop as (y & _ & Hop). unfold phase2 in Hop.
  repeat match type of Hop with context [if ?c then _ else _] => destruct c end.
  all: try (by apply elem_of_nil in Hop).
  all: repeat match type of Hop with context [match ?c with Some _ => _ | None => _ end] => destruct c end.
  all: try (by apply elem_of_nil in Hop); by apply elem_of_list_singleton in Hop as ->.
Qed.

(** If the old and the new nesting agree with one order, no Move puts a node
    below itself. *)
Lemma ranked_swap_free m (S : nat + nat -> Prop) (r : nat + nat -> nat) (ops : list hop) : forall AP,
  (forall k n, S k -> AP k = Some n -> S n /\ r n < r k) ->
  (forall x y py k, Move x y py k ∈ ops -> S (img m py) /\ r (img m py) < r (inl x)) ->
  swap_free m AP ops.
Proof.
  induction ops as [|op ops IH]; intros AP HA HM; [done|].
  assert (forall x y py k, Move x y py k ∈ ops -> S (img m py) /\ r (img m py) < r (inl x)) as HM'.
  { intros x y py k Hin. apply (HM x y py k). by right. }
  destruct op; cbn [swap_free]; try (by apply IH).
  assert (S (img m new_parent_b) /\ r (img m new_parent_b) < r (inl node_a)) as [HS Hlt] by (eapply HM; left).
  split.
  - intros Hr. assert (forall a b, rtc (edge AP) a b -> S a -> r b <= r a) as Hle.
    { intros a b Hab. induction Hab as [|a c b E _ IHab]; [lia|]. intros Ha.
      apply HA in E as [? ?]; [|done]. specialize (IHab H). lia. }
    apply Hle in Hr; [lia|done].
  - apply IH; [|done]. intros [i|y] k HSk; cbn; [|by apply HA].
    destruct (Nat.eqb_spec i node_a) as [->|]; [by intros [= <-]|by apply HA].
Qed.

(** Attributes a program can handle. *)
Definition okh (okn : string -> attrs -> Prop) (k : hkind) (ats : attrs) : Prop :=
  match k with KElem tag _ => okn tag ats | _ => True end.

(** What becomes of the nodes of a document [C] that shows the old tree [t]
    below [cb], when it turns into [D'], which shows the new tree [Dn] below
    [cb]: a node matched with a new node is found where that new node is; for a
    new node without partner a node was created. *)
Definition identity (t : arena tdata) (Dn : arena dnode) (nb : nat) (m : matching) (C D' : arena dnode)
    (cb : nat) : Prop :=
  (forall x y q q', get_b m x = Some y -> node_at t 0 q = Some x -> node_at Dn nb q' = Some y ->
     exists i, node_at C cb q = Some i /\ node_at D' cb q' = Some i) /\
  (forall y q', get_a m y = None -> node_at Dn nb q' = Some y ->
     exists i, node_at D' cb q' = Some i /\ length C <= i).

Section Assembly.
  Context {H : Type} {OQ : opaques}.
  Variables (heqb : H -> H -> bool) (hcomb : hkind -> option string -> list H -> H) (h0 : H).
  Variables (D Dn : arena dnode) (bd nb : nat) (ts us : list htree).
  Variables (tag : string) (ns : nspace) (oats nats : attrs).
  Local Notation bk := (KElem tag ns).

  Hypothesis WD : wf D.
  Hypothesis WN : wf Dn.
  Hypothesis OB : data D bd = Some (mkD (NElem tag oats) ns).
  Hypothesis NB : data Dn nb = Some (mkD (NElem tag nats) ns).
  Hypothesis OH : holds_list D ts (children D bd).
  Hypothesis NH : holds_list Dn us (children Dn nb).
  Hypothesis OP : forall h, h ∈ ts -> hall (sound bk) h.
  Hypothesis NP : forall h, h ∈ us -> hall (sound bk) h.
  Hypothesis OL : forall h, h ∈ ts -> hollow is_opaque_props h.
  Hypothesis NL : forall h, h ∈ us -> hollow is_opaque_props h.
  Hypothesis NA : NoDup (keys nats).
  Hypothesis NO : is_opaque_props nats = false.

  Variables (t : arena tdata) (ta tb : dtree H hkind attrs string) (m : matching).
  Hypothesis BUILD : build_tree D bd = Val t.
  Hypothesis TA : mk_dtree hcomb h0 (fun d => d) t 0 = Val ta.
  Hypothesis TB : mk_dtree hcomb h0 tdata_of Dn nb = Val tb.
  Hypothesis MM : html_matching heqb ta tb = Val m.
  Hypothesis NC : no_collision heqb ta tb.

  Lemma as_built : built t bk ts.
  Proof.
    destruct (build_tree_ok D bd _ ts WD OB OH) as (t' & E & BT). rewrite BUILD in E. injection E as <-. exact BT.
  Qed.

  Lemma as_presents_a : exists ra, presents ta ra /\ forall x, x ∈ t_iter ta <-> x < length t.
  Proof.
    pose proof as_built as BT. destruct (built_tree t _ ts BT) as (r & Hr & Ht & Hi).
    destruct (mk_dtree_presents hcomb h0 (fun d => d) t r (bt_wf _ _ _ BT)) as (ta' & E & PA).
    - rewrite Hr. eapply data_lt. apply BT.
    - done.
    - rewrite Hr, TA in E. injection E as <-. exists r. split; [done|]. intros x. by rewrite (pr_iter ta r PA).
  Qed.

  Lemma as_presents_b : exists rb, presents tb rb /\ rid rb = nb /\ is_tree Dn rb.
  Proof.
    destruct (tree_exists Dn nb WN) as (r & Hr & Ht).
    destruct (mk_dtree_presents hcomb h0 tdata_of Dn r WN) as (tb' & E & PB).
    - rewrite Hr. by eapply data_lt.
    - done.
    - rewrite Hr, TB in E. injection E as <-. by exists r.
  Qed.

  Lemma as_old x : x < length t ->
    shaped ta x /\ (t_opaque ta x = true -> t_children ta x = []) /\
    (x = 0 -> t_kind ta x = bk) /\ (x <> 0 -> t_kind ta x <> bk).
  Proof.
    intros Hx. pose proof as_built as BT.
    destruct (mk_dtree_fields _ _ _ _ _ _ TA) as (_ & K & P & T & _ & C & _ & _ & O).
    unfold shaped. rewrite K, P, T, O, C. unfold dkind, dprops, dtext.
    destruct (decide (x = 0)) as [->|H0].
    - rewrite (bt_root _ _ _ BT). cbn. split; [split; [done|constructor]|]. split; [done|]. done.
    - destruct (tholds_below_gen (fun h => hall (sound bk) h /\ hollow is_opaque_props h) t bk ts) with (x := x)
        as (h & Hh & Hp & Hl); [|done| |done|done|].
      { intros h c [G1 G2] Hc. split; [by apply (inherited_hall _ h)|by apply (inherited_hollow _ h)]. }
      { auto. }
      apply tholds_eq in Hh as [-> Hc]. apply hall_eq in Hp as [(P1 & P2) _]. apply hollow_eq in Hl as [P3 _].
      assert (is_opaque_props (td_props (tdata_of_h h)) = true -> children t x = []) as P4.
      { intros Ho. apply P3 in Ho. rewrite Ho in Hc. inversion Hc as [He|]. done. }
      destruct h as [tg n ats cs|sx|sx]; cbn in *; (split; [eauto|]); (split; [exact P4|]); done.
  Qed.

  Lemma as_new y : y ∈ t_iter tb ->
    shaped tb y /\ (t_opaque tb y = true -> t_children tb y = []) /\
    (y = nb -> t_kind tb y = bk) /\ (y <> nb -> t_kind tb y <> bk /\ exists h, holds Dn h y).
  Proof.
    intros Hy. destruct as_presents_b as (rb & PB & Er & Ht). rewrite (pr_iter tb rb PB) in Hy.
    destruct (mk_dtree_fields _ _ _ _ _ _ TB) as (_ & K & P & T & _ & C & _ & _ & O).
    unfold shaped. rewrite K, P, T, O, C. unfold dkind, dprops, dtext.
    destruct (decide (y = nb)) as [->|H0].
    - rewrite NB. cbn -[is_opaque_props]. rewrite NO. done.
    - destruct (holds_below_list_gen (fun h => hall (sound bk) h /\ hollow is_opaque_props h) Dn rb us) with (y := y)
        as (h & Hh & Hp & Hl); [|done|by rewrite Er| |done|by rewrite Er|].
      { intros h c [G1 G2] Hc. split; [by apply (inherited_hall _ h)|by apply (inherited_hollow _ h)]. }
      { auto. }
      assert (exists h, holds Dn h y) as Hex by (by exists h).
      pose proof (holds_children _ _ _ Hh) as Hc.
      destruct (tdata_of_holds Dn h y Hh) as (d & -> & ->).
      apply hall_eq in Hp as [(P1 & P2) _]. apply hollow_eq in Hl as [P3 _]. clear Hh.
      assert (is_opaque_props (td_props (tdata_of_h h)) = true -> children Dn y = []) as P4.
      { intros Ho. apply P3 in Ho. rewrite Ho in Hc. inversion Hc as [He|]. done. }
      destruct h as [tg n ats cs|sx|sx]; cbn in *; (split; [eauto|]); (split; [exact P4|]); done.
  Qed.

  Lemma as_kind_b h y : holds Dn h y -> tkind tb y =
    match h with HElem tag _ ats _ => NElem tag ats | HText s => NText s | HComment s => NComment s end.
  Proof.
    intros Hh. destruct (mk_dtree_fields _ _ _ _ _ _ TB) as (_ & K & P & T & _).
    unfold tkind. rewrite K, P, T. unfold dkind, dprops, dtext.
    destruct (tdata_of_holds Dn h y Hh) as (d & -> & ->). by destruct h.
  Qed.

  Lemma as_matching : bijection m /\ get_b m 0 = Some nb /\
    forall x y, get_b m x = Some y -> x < length t /\ y ∈ t_iter tb /\ t_kind ta x = t_kind tb y.
  Proof.
    destruct as_presents_a as (ra & PA & Hi). destruct as_presents_b as (rb & PB & Er & Ht).
    pose proof as_built as BT.
    destruct (mk_dtree_fields _ _ _ _ _ _ TA) as (Ra & _). destruct (mk_dtree_fields _ _ _ _ _ _ TB) as (Rb & _).
    assert (0 < length t) as L0 by (eapply data_lt; apply BT).
    assert (nb ∈ t_iter tb) as Hnb. { rewrite <- Rb. by eapply pr_root_iter. }
    destruct (as_old 0 L0) as (_ & _ & Ka & _). specialize (Ka eq_refl).
    destruct (as_new nb Hnb) as (_ & _ & Kb & _). specialize (Kb eq_refl).
    unfold html_matching in MM.
    destruct (compute_matching heqb hkind_eqb props_sim diff_config ta tb) as [m0| | |] eqn:E0; try done.
    cbn [obind] in MM. pose proof (compute_matching_bijection _ _ _ _ _ _ _ E0) as B0.
    assert (forall x y, get_b m0 x = Some y -> x < length t /\ y ∈ t_iter tb /\ t_kind ta x = t_kind tb y) as H1.
    { intros x y Hxy. apply (bij_fwd _ B0) in Hxy.
      destruct (compute_matching_iter heqb _ _ _ ta tb ra rb PA PB m0 x y E0 Hxy) as [G1 G2].
      split; [by apply Hi|]. split; [done|].
      apply (compute_matching_kinds heqb hkind_eqb props_sim diff_config ta tb ra rb PA PB m0 x y NC); [|done|done].
      intros ? ?. apply hkind_eqb_eq. }
    assert (forall x, get_a m0 nb = Some x -> x = 0) as Hroot.
    { intros x Ha. apply (bij_bwd _ B0), (bij_fwd _ B0) in Ha.
      destruct (decide (x = 0)) as [|Hne]; [done|]. exfalso.
      destruct (H1 _ _ Ha) as (G1 & G2 & G3). rewrite Kb in G3. destruct (as_old x G1) as (_ & _ & _ & G4).
      by apply G4. }
    rewrite Ra, Rb in MM. rewrite (proj2 (hkind_eqb_eq _ _)) in MM by congruence. cbn [andb] in MM.
    destruct (contains_a m0 0) eqn:Ec; cbn [negb] in MM; injection MM as <-.
    - split; [done|]. split; [|done]. apply contains_a_true in Ec as [y Hy].
      destruct (decide (y = nb)) as [->|Hne]; [done|]. exfalso.
      destruct (H1 _ _ Hy) as (_ & G2 & G3). rewrite Ka in G3. destruct (as_new y G2) as (_ & _ & _ & G4).
      by destruct (G4 Hne).
    - assert (contains_b m0 nb = false) as Ecb.
      { apply contains_b_false. destruct (get_a m0 nb) as [x|] eqn:Ex; [|done]. exfalso.
        assert (x = 0) as -> by (by apply Hroot). apply contains_a_false in Ec.
        apply (bij_bwd _ B0), (bij_fwd _ B0) in Ex. congruence. }
      split; [by apply bijection_add|]. split; [by rewrite get_b_add, Nat.eqb_refl|].
      intros x y. rewrite get_b_add. destruct (Nat.eqb_spec 0 x) as [<-|]; [|apply H1].
      intros [= <-]. split; [done|]. split; [done|]. congruence.
  Qed.

  Hypothesis SF : swap_free m (init_parents t tb m) (html_edit_script ta tb m).

  (** The document the patches are applied to: it need not be the one they were
      computed from, as long as it shows the same content. *)
  Variables (va : attrs -> attrs) (okn : string -> attrs -> Prop)
    (shw : pstate -> pstate -> Prop) (ap : pstate -> patch -> presult).
  Variables (C : arena dnode) (cb : nat) (st0 : pstate).
  Hypothesis WC : wf C.
  Hypothesis CE : is_cont C cb.
  Hypothesis CUT : forall i tag l, node_kind C i = Some (NElem tag l) -> opq l = true -> children C i = [].
  Hypothesis SH : shw st0 (C, [(0, cb)]).
  Hypothesis CH : shows_list_v va C ts (children C cb).
  Hypothesis TI : tight = true -> holds_list C ts (children C cb).

  (** The program that applies the patches. *)
  Hypothesis AO : applier va okn shw ap.
  Hypothesis OKO : forall h, h ∈ ts -> hall (okh okn) h.
  Hypothesis OKN : forall h, h ∈ us -> hall (okh okn) h.
  Hypothesis OK0 : exists tg, okn tg [].
  Hypothesis OK1 : exists tg, okn tg nats.

  (** What the program takes for opaque. *)
  Hypothesis QR : opq (va nats) = false.
  Hypothesis QN : forall h, h ∈ us -> hollow (fun l => opq (va l)) h.
  Hypothesis QM : forall x y, get_b m x = Some y -> x <> 0 -> opq (va (t_props ta x)) = opq (va (t_props tb y)).

  Lemma as_ok_old x : x < length t -> elemk (tkind ta x) -> exists tg, okn tg (t_props ta x).
  Proof.
    intros Hx. pose proof as_built as BT.
    destruct (mk_dtree_fields _ _ _ _ _ _ TA) as (_ & K & P & T & _).
    unfold tkind. rewrite K, P, T. unfold dkind, dprops, dtext.
    destruct (decide (x = 0)) as [->|H0].
    - rewrite (bt_root _ _ _ BT). cbn. done.
    - destruct (tholds_below (okh okn) t bk ts BT OKO x Hx H0) as (h & Hh & Hp).
      apply tholds_eq in Hh as [-> _]. apply hall_eq in Hp as [P1 _].
      destruct h as [tg n ats cs|sx|sx]; cbn in *; [by exists tg|done|done].
  Qed.

  Lemma as_ok_new y : y ∈ t_iter tb ->
    (elemk (tkind tb y) -> exists tg, okn tg (t_props tb y)) /\ (y <> nb -> okk okn (tkind tb y)).
  Proof.
    intros Hy. destruct as_presents_b as (rb & PB & Er & Ht). rewrite (pr_iter tb rb PB) in Hy.
    destruct (mk_dtree_fields _ _ _ _ _ _ TB) as (_ & K & P & T & _).
    unfold tkind. rewrite K, P, T. unfold dkind, dprops, dtext.
    destruct (decide (y = nb)) as [->|H0].
    - rewrite NB. cbn. done.
    - destruct (holds_below_list (okh okn) Dn rb us Ht ltac:(by rewrite Er) OKN y Hy ltac:(by rewrite Er)) as (h & Hh & Hp).
      destruct (tdata_of_holds Dn h y Hh) as (d & -> & ->). apply hall_eq in Hp as [P1 _]. clear Hh.
      destruct h as [tg n ats cs|sx|sx]; cbn in P1 |- *; [|done|done]. split; [by exists tg|done].
  Qed.

  Theorem assembly : exists ps st' D' sl,
    convert_ops (html_edit_script ta tb m) t tb m = Val ps /\
    run_all ap st0 ps = (st', Val tt) /\ shw st' (D', sl) /\
    wf D' /\ shows_list_v va D' us (children D' cb) /\
    length ps = length (html_edit_script ta tb m) /\
    (forall p, p ∈ ps -> hits_body p = false) /\ identity t Dn nb m C D' cb.
  Proof.
    destruct as_presents_a as (ra & PA & Hi). destruct as_presents_b as (rb & PB & Er & Ht).
    destruct as_matching as (BJ & MR & MI). pose proof as_built as BT. pose proof (bt_wf _ _ _ BT) as WT.
    destruct (mk_dtree_fields _ _ _ _ _ _ TA) as (Ra & _ & _ & _ & FPa & FCa & _).
    destruct (mk_dtree_fields _ _ _ _ _ _ TB) as (Rb & _ & _ & _ & FPb & FCb & _).
    pose proof (bt_root_parent _ _ _ BT) as T0.
    assert (0 < length t) as L0 by (eapply data_lt; apply BT).
    assert (opaque_descendants ta = []) as Oa.
    { apply (opaque_none ta ra PA). intros x Hx. apply Hi in Hx. apply (as_old x Hx). }
    assert (opaque_descendants tb = []) as Ob.
    { apply (opaque_none tb rb PB). intros y Hy. apply (as_new y Hy). }
    set (ops := html_edit_script ta tb m). set (ins := insert_nodes ops).
    assert (ops = flat_map (ph1 ta tb [] []) (m_pairs m) ++ flat_map (phase2 tb m []) (t_iter tb)
      ++ flat_map (phase4 ta tb m [] []) (m_pairs m) ++ flat_map (phase5 m []) (t_post ta)) as Eops.
    { unfold ops, html_edit_script, generate_edit_script, edit_script_with. by rewrite Oa, Ob. }
    destruct (shadow_new_full t WT L0 T0) as (s & Es & FS).
    destruct (wf_chain _ WC cb) as [lb BC].
    assert (cb < length C) as BL.
    { destruct CE as (k & Hk & _). unfold node_kind in Hk. destruct (data C cb) eqn:Ed; [|done]. by eapply data_lt. }
    pose proof (start_sim t bk ts s va C cb lb BT FS WC CH BL BC CE CUT TI) as SM0.
    set (f := start_f s C cb) in *. set (kd0 := start_kd s C cb) in *.
    set (cs0 := mkCS s (b2s_of (m_pairs m)) []).
    (* phase 1 *)
    destruct (attrs_run ta tb va okn shw ap AO ins cb lb f (fun x => x < length t) (m_pairs m) cs0 st0 (C, [(0, cb)]) kd0)
      as (cs1 & st1 & st1' & kd1 & R1 & Es1 & Eb1 & SH1 & Le1 & SM1 & H01 & Hk1 & _).
    { exact SH. }
    { exact SM0. }
    { apply BJ. }
    { intros x y Hin. apply (bij_fwd _ BJ) in Hin. destruct (MI x y Hin) as (Hx & Hy & Hk).
      destruct (as_old x Hx) as (Sx & _ & Kx & _). destruct (as_new y Hy) as (Sy & _ & _ & _).
      split; [done|]. split; [by apply (start_path t bk ts s C cb BT FS BL)|].
      do 3 (split; [done|]). split.
      - intros H0. destruct (start_corr t bk ts s va C cb BT FS CH BL x Hx) as [_ (hs & _ & _ & Hh)].
        destruct (Hh H0) as (h & _ & Hth & Hdh). unfold kd0. rewrite (start_kd_h s va C cb x h Hdh).
        destruct (mk_dtree_fields _ _ _ _ _ _ TA) as (_ & K & P & T & _).
        unfold tkind. rewrite K, P, T. unfold dkind, dprops, dtext.
        apply tholds_eq in Hth as [-> _]. by destruct h.
      - split.
        { intros ->. split; [unfold tkind; rewrite Kx by done; done|].
          assert (y = nb) as -> by congruence.
          destruct (mk_dtree_fields _ _ _ _ _ _ TB) as (_ & _ & P & _). rewrite P. unfold dprops.
          rewrite NB. split; [exact QR|].
          destruct (mk_dtree_fields _ _ _ _ _ _ TA) as (_ & _ & PA0 & _). rewrite PA0. unfold dprops.
          by rewrite (bt_root _ _ _ BT). }
        intros He. split; [by apply as_ok_old|]. split; [|by apply QM].
        apply (as_ok_new y Hy). unfold tkind in *. rewrite <- Hk.
        by destruct (t_kind ta x). }
    { by apply (start_kd_root t s C cb FS). }
    cbn [cs_shadow cs_b2s cs0] in Es1, Eb1, SM1.
    (* the invariant *)
    set (pend := fun y => match get_a m y with
       | None => True | Some x => phase4 (C:=list prop_change) ta tb m [] [] (x, y) <> [] end).
    assert (forall x y, slot_get (b2s_of (m_pairs m)) y = Some x <-> get_b m x = Some y) as Hb2s.
    { intros x y. rewrite (slot_get_b2s _ _ _ (bij_nodup_b _ BJ)). by rewrite (bij_fwd _ BJ). }
    assert (forall x, real t (b2s_of (m_pairs m)) x -> x < length t) as Hreal.
    { intros x [Hx|[y Hy]]; [done|]. apply Hb2s in Hy. by destruct (MI x y Hy). }
    assert (joint t tb m va shw f (length C) (init_parents t tb m) (cs_shadow cs1) st1 (cs_b2s cs1) no1 pend cb lb) as J1.
    { rewrite Es1, Eb1. exists st1'. split; [done|]. exists f, (fun x => x < length t), kd1. split.
      { split; [done|]. split; [by rewrite Le1|]. intros y x Hn Hy. apply Hb2s, (get_ab m BJ) in Hy. congruence. }
      split; [done|].
      split; try done.
      - apply FS.
      - intros x y Hxy. by apply Hb2s.
      - intros x y Hxy. apply Hb2s in Hxy. by destruct (MI x y Hxy) as (_ & ? & _).
      - intros x y Hxy Hn. apply Hb2s in Hxy. apply (get_ab m BJ) in Hxy. congruence.
      - intros x y y' H1 H2. apply Hb2s in H1, H2. congruence.
      - intros x Hx. left. by left.
      - intros x Hx _ _. apply Hreal in Hx. rewrite (fs_super _ _ FS).
        destruct (decide (x = 0)) as [->|H0].
        + exists (S (length t)). split; [exact (fs_root_parent _ _ FS)|]. left. exact (fs_slot_parent _ _ FS).
        + destruct (start_parent t bk ts C cb BT BL x Hx H0) as (p & i & Hp & Hpl & _).
          exists p. rewrite (fs_parent _ _ FS) by done. split; [done|]. right.
          split; [by left|]. split; [by intros []|]. intros [i'|y] Hn.
          * destruct Hn as [-> _]. exists (inl p). split; [by split|]. cbn. by rewrite Hp.
          * destruct Hn as [Hu Hy]. apply Hb2s, (get_ab m BJ) in Hy. congruence.
      - intros x p Hx Hn _ Hp. left. rewrite <- (fs_parent _ _ FS); [done|done|]. intros ->. congruence.
      - intros y Hy Hne Hnp. unfold pend in Hnp.
        destruct (get_a m y) as [x|] eqn:Ex; [|by destruct Hnp].
        apply (get_ab m BJ) in Ex.
        destruct (MI x y Ex) as (Hx & _ & _).
        assert (x <> 0) as H0. { intros ->. congruence. }
        destruct (start_parent t bk ts C cb BT BL x Hx H0) as (p & i & Hp & Hpl & Hil).
        destruct (pr_nonroot tb rb PB y Hy Hne) as (py & Hpy & _ & _).
        exists py, x, p. split; [done|].
        unfold phase4 in Hnp. cbn [mem existsb orb] in Hnp. rewrite FPa, Hp, Hpy in Hnp.
        destruct (get_b m p) as [q|] eqn:Eq; [|by destruct Hnp].
        destruct (Nat.eqb_spec q py) as [->|]; cbn [negb] in Hnp; [|by destruct Hnp].
        destruct (Nat.eqb_spec (t_position ta x) (t_position tb y)) as [Epos|]; cbn [negb] in Hnp; [|by destruct Hnp].
        split; [by apply Hb2s|]. split; [by apply Hb2s|].
        rewrite (fs_children _ _ FS) by done.
        destruct (pr_nonroot ta ra PA x) as (p' & Hp' & _ & Hl); [by apply Hi|by rewrite Ra|].
        rewrite FPa, Hp in Hp'. injection Hp' as <-. rewrite FCa in Hl. by rewrite <- Epos.
      - intros x y Hxy Hne. apply Hb2s in Hxy. apply Hk1; [by apply (bij_fwd _ BJ)|].
        intros ->. congruence. }
    assert (forall y py, y ∈ t_iter tb -> y <> t_root tb -> t_parent tb y = Some py ->
      py <> t_root tb -> contk (vkind va (tkind tb py))) as EB.
    { intros y py Hy Hne Hp Hpr. destruct (pr_nonroot tb rb PB y Hy Hne) as (p & Hp' & Hpi & Hl).
      rewrite Hp in Hp'. injection Hp' as <-.
      destruct (holds_below_list_gen (hollow (fun l => opq (va l))) Dn rb us) with (y := py) as (h & Hh & Hp3);
        [apply inherited_hollow|done|by rewrite Er|done|by rewrite <- (pr_iter tb rb PB)|by rewrite Er, <- Rb|].
      rewrite (as_kind_b h py Hh). rewrite FCb in Hl. pose proof (holds_children _ _ _ Hh) as Hc.
      apply hollow_eq in Hp3 as [Hp3 _].
      destruct h as [tg n ats cs|sx|sx]; cbn [hchildren] in *.
      2,3: inversion Hc as [E1 E2|]; rewrite <- E2 in Hl; done.
      cbn [vkind contk]. destruct (opq (va ats)) eqn:Eo; [|done]. cbn in Hp3. rewrite (Hp3 Eo) in Hc.
      inversion Hc as [E1 E2|]. rewrite <- E2 in Hl. done. }
    assert (get_b m 0 = Some (t_root tb)) as MR' by (by rewrite Rb).
    assert (forall x y, get_b m x = Some y -> x < length t /\ y ∈ t_iter tb) as MI'.
    { intros x y Hxy. by destruct (MI x y Hxy) as (? & ? & _). }
    assert (forall y, y ∈ t_iter tb -> y <> t_root tb -> okk okn (tkind tb y)) as OKB.
    { intros y Hy Hne. rewrite Rb in Hne. by apply as_ok_new. }
    (* phase 2 *)
    destruct (inserts_run t tb rb m va okn shw ap PB BJ MI' MR' EB f (length C) AO OKB (init_parents t tb m) ins no1 cb lb) with
      (rest := t_iter tb) (dn := @nil nat) (cs := cs1) (st := st1) (pend := pend)
      as (cs2 & st2 & R2 & J2 & Hall2).
    { intros y py _ Hp. cbn. by rewrite Hp. }
    { intros y Hy Hn. unfold ins. rewrite Eops. unfold insert_nodes.
      apply elem_flat_map.
      destruct (pr_nonroot tb rb PB y Hy) as (py & Hpy & _ & _).
      { intros ->. apply (get_ab m BJ) in MR'. congruence. }
      exists (Insert y py (t_position tb y) (t_kind tb y)). split; [|left].
      apply elem_of_app. right. apply elem_of_app. left. apply elem_flat_map. exists y. split; [done|].
      unfold phase2. rewrite (proj2 (contains_b_false m y) Hn), Hpy. cbn. left. }
    { done. }
    { exact J1. }
    { intros y Hy. by apply elem_of_nil in Hy. }
    { intros y Hy Hn. split; [unfold pend; by rewrite Hn|]. rewrite Eb1.
      destruct (slot_get (b2s_of (m_pairs m)) y) as [x|] eqn:Ex; [|done].
      apply Hb2s, (get_ab m BJ) in Ex. congruence. }
    (* phase 4 *)
    destruct (moves_run t ta tb rb m va okn shw ap PB BJ MI' MR' EB f (length C) AO FPa T0 ins no1 cb lb) with
      (rest := m_pairs m) (AP := init_parents t tb m) (cs := cs2) (st := st2)
      (pend := fun z => pend z /\ ~ (z ∈ t_iter tb /\ get_a m z = None))
      as (AP3 & cs3 & st3 & R3 & J3 & Hall3).
    { fold ops in SF. rewrite Eops in SF.
      apply swap_free_skip in SF; [|intros op Hop; by eapply ph1_no_move].
      apply swap_free_skip in SF; [|intros op Hop; by eapply phase2_no_move].
      by apply swap_free_app in SF. }
    { done. }
    { apply BJ. }
    { exact J2. }
    { exact Hall2. }
    { intros x y Hin Hp4. apply (bij_bwd _ BJ) in Hin. unfold pend. rewrite Hin. split; [done|].
      intros [_ ?]. congruence. }
    assert (joint t tb m va shw f (length C) AP3 (cs_shadow cs3) st3 (cs_b2s cs3) (fun z => z ∈ @nil nat /\ get_b m z = None) no1 cb lb) as J3'.
    { destruct J3 as (st3' & SH3 & f3 & dom3 & kd3 & FX3 & SM3 & IV3). exists st3'. split; [done|].
      exists f3, dom3, kd3. split; [done|]. split; [done|].
      assert (forall z, z ∈ @nil nat -> False) as Hnil by (intros z Hz; by apply elem_of_nil in Hz).
      destruct IV3. split; try done.
      - intros x Hx Hdx Ho. destruct (iv_live x Hx) as (p & Hp & Hor); [by intros []|done|].
        exists p. split; [done|]. destruct Hor as [?|(? & _ & ?)]; [by left|right].
        split; [done|]. split; [|done]. intros [? _]. eauto.
      - intros x p Hx Hm _. apply iv_old; [done|done|by intros []].
      - intros x [? _]. exfalso. eauto.
      - intros y Hy Hne _. apply iv_placed; [done|done|]. intros [[Hp Hn1] Hn2].
        unfold pend in Hp. destruct (get_a m y) as [x|] eqn:Ex; [|by apply Hn1].
        apply Hn2. exists x. split; [by apply (bij_bwd _ BJ)|done]. }
    (* phase 5 *)
    destruct (deletes_run t ta tb m va okn shw ap BJ MR' f (length C) AO FPa T0 ra PA Hi Ra AP3 ins cb lb
      (t_post ta) [] cs3 st3 eq_refl J3') as (cs4 & st4 & R4 & Eb4 & J4).
    assert (runs tb ap ins cs0 st0 ops cs4 st4) as R.
    { rewrite Eops. eapply runs_app; [exact R1|]. eapply runs_app; [exact R2|].
      eapply runs_app; [exact R3|exact R4]. }
    destruct R as (ps & E1 & E2 & E3 & E4 & E5).
    destruct J4 as ([D' sl] & SH4 & f4 & dom4 & kd4 & (FX4 & _ & FN4) & SM4 & IV4).
    exists ps, st4, D', sl. split; [|split; [done|split; [done|split; [|split; [|split; [done|split; [done|]]]]]]].
    - unfold convert_ops. rewrite Es. cbn [obind]. fold ins. change (mkCS s (b2s_of (m_pairs m)) []) with cs0.
      rewrite E1. cbn [obind]. rewrite E2. done.
    - apply (sm_wf _ _ _ _ _ _ _ SM4).
    - apply (final_body t tb rb m Dn va PB MR' FCb as_kind_b _ _ _ _ _ _ _ _ _ SM4 IV4).
      by rewrite Rb.
    - destruct (sm_root _ _ _ _ _ _ _ SM4) as (_ & F0 & _).
      assert (forall q z, node_at Dn nb q = Some z -> exists xz, slot_get (cs_b2s cs4) z = Some xz /\
                dom4 xz /\ node_at D' cb q = Some (f4 xz)) as Hend.
      { intros q z Hz.
        destruct (final_walk t tb rb m Dn va PB FCb _ _ _ _ _ _ _ _ _ SM4 IV4 q nb 0 z) as (_ & xz & H1 & H2 & H3).
        - rewrite <- Rb. by destruct (MI' 0 (t_root tb) MR').
        - rewrite <- Rb. by apply (iv_matched _ _ _ _ _ _ _ _ _ _ _ _ IV4).
        - done.
        - exists xz. rewrite F0 in H3. done. }
      assert (forall q x, node_at t 0 q = Some x -> x < length t /\ node_at C cb q = Some (f4 x)) as Hbeg.
      { intros q x Hx. destruct (start_walk t bk ts s va C cb BT FS CH BL q 0 x) as [Hl Hw]; [done|done|].
        rewrite (start_f_root t s C cb FS) in Hw. split; [done|]. rewrite Hw. f_equal. symmetry. by apply FX4. }
      split.
      + intros x y q q' Hxy Hq Hq'. destruct (Hend q' y Hq') as (xz & H1 & _ & H3).
        rewrite (iv_matched _ _ _ _ _ _ _ _ _ _ _ _ IV4 _ _ Hxy) in H1. injection H1 as <-.
        exists (f4 x). split; [by apply Hbeg|done].
      + intros y q' Hy Hq'. destruct (Hend q' y Hq') as (xz & H1 & H2 & H3). exists (f4 xz). split; [done|].
        by eapply FN4.
  Qed.
End Assembly.
