(** Edits in place, applied by the browser client (for C66). *)
From stdpp Require Import list_numbers.
From Verif Require Import Base Arena Matching Chawathe Dom HtmlDiff Browser ArenaProofs ArenaOps TreeProofs DomTree
  BuildProofs AttrProofs SimProofs RoundProofs RestyleProofs Applier AssembleProofs BrowserProofs InPlaceSpec InPlaceProofs PropBrowser.

(** ** What a browser's node shows *)

(** As [shows], with attributes under their qualified names, and whatever there
    may be inside opaque elements. *)
Fixpoint mirrors (a : arena dnode) (h : htree) (i : nat) {struct h} : Prop :=
  match h with
  | HText s => node_kind a i = Some (NText s) /\ children a i = []
  | HComment s => node_kind a i = Some (NComment s) /\ children a i = []
  | HElem tag _ ats cs =>
      node_kind a i = Some (NElem tag (battrs ats)) /\
      if is_opaque_props ats then True
      else exists l E, children a i = (l ++ E)%list /\ (forall e, e ∈ E -> empty_leaf a e) /\
           (fix all (cs : list htree) (l : list nat) : Prop :=
              match cs, l with
              | [], [] => True
              | c :: cs', j :: l' => mirrors a c j /\ all cs' l'
              | _, _ => False
              end) cs l
  end.
Definition mirrors_list (a : arena dnode) (ts : list htree) (l : list nat) : Prop :=
  exists l1 E, l = (l1 ++ E)%list /\ (forall e, e ∈ E -> empty_leaf a e) /\ Forall2 (mirrors a) ts l1.

Lemma mirrors_all a cs : forall l,
  (fix all (cs : list htree) (l : list nat) : Prop :=
     match cs, l with
     | [], [] => True
     | c :: cs', j :: l' => mirrors a c j /\ all cs' l'
     | _, _ => False
     end) cs l <-> Forall2 (mirrors a) cs l.
Proof.
  induction cs as [|c cs IH]; intros [|j l].
  - split; [constructor|done].
  - split; [done|by inversion 1].
  - split; [done|by inversion 1].
  - rewrite IH. split; [intros [H1 H2]; by constructor|by inversion 1].
Qed.
Lemma mirrors_elem a tag ns ats cs i :
  mirrors a (HElem tag ns ats cs) i <->
  node_kind a i = Some (NElem tag (battrs ats)) /\ (is_opaque_props ats = false -> mirrors_list a cs (children a i)).
Proof.
  cbn [mirrors]. unfold mirrors_list. destruct (is_opaque_props ats).
  - split; intros [H1 H2]; by split.
  - split; intros [H1 H2]; (split; [done|]).
    + intros _. destruct H2 as (l & E & H3 & H4 & H5). exists l, E. split; [done|]. split; [done|]. by apply mirrors_all.
    + destruct (H2 eq_refl) as (l & E & H3 & H4 & H5). exists l, E. split; [done|]. split; [done|]. by apply mirrors_all.
Qed.

(** The node itself, without what is below. *)
Definition looks (a : arena dnode) (h : htree) (i : nat) : Prop :=
  match h with
  | HText s => node_kind a i = Some (NText s)
  | HComment s => node_kind a i = Some (NComment s)
  | HElem tag _ ats _ => node_kind a i = Some (NElem tag (battrs ats))
  end.
Lemma mirrors_looks a h i : mirrors a h i -> looks a h i.
Proof. destruct h; cbn [looks]; [rewrite mirrors_elem|..]; by intros [? _]. Qed.

(** ** Paths *)

Lemma node_at_snoc {D} (a : arena D) r : forall i k, node_at a i (r ++ [k]) =
  match node_at a i r with Some n => children a n !! k | None => None end.
Proof.
  induction r as [|j r IH]; intros i k; cbn [node_at app].
  - by destruct (children a i !! k).
  - destruct (children a i !! j); [apply IH|done].
Qed.
Lemma node_at_above {D} (a : arena D) r : wf a -> forall i n, node_at a i r = Some n -> above a i n.
Proof.
  intros W. induction r as [|k r IH] using rev_ind; intros i n.
  - intros [= ->]. by apply above_refl.
  - rewrite node_at_snoc. destruct (node_at a i r) as [m|] eqn:E; [|done]. intros Hk.
    apply IH in E. eapply above_parent; [exact E|]. apply (wf_pc a W). by eapply elem_of_list_lookup_2.
Qed.
Lemma node_at_inj {D} (a : arena D) i : wf a -> forall r r' n, node_at a i r = Some n -> node_at a i r' = Some n -> r = r'.
Proof.
  intros W. induction r as [|k r IH] using rev_ind; intros r' n.
  - intros [= <-]. destruct r' as [|k' r' _] using rev_ind; [done|]. rewrite node_at_snoc.
    destruct (node_at a i r') as [m|] eqn:E; [|done]. intros Hk. exfalso.
    apply (above_not_parent a i m W); [|by apply (node_at_above a r')].
    apply (wf_pc a W). by eapply elem_of_list_lookup_2.
  - rewrite node_at_snoc. destruct (node_at a i r) as [m|] eqn:E; [|done]. intros Hk.
    assert (parent a n = Some m) as Hp by (apply (wf_pc a W); by eapply elem_of_list_lookup_2).
    destruct r' as [|k' r' _] using rev_ind.
    + intros [= <-]. exfalso. apply (above_not_parent a i m W Hp). by apply (node_at_above a r).
    + rewrite node_at_snoc. destruct (node_at a i r') as [m'|] eqn:E'; [|done]. intros Hk'.
      assert (parent a n = Some m') as Hp' by (apply (wf_pc a W); by eapply elem_of_list_lookup_2).
      assert (m' = m) as -> by congruence. f_equal; [by apply (IH r' m)|]. f_equal.
      by apply (NoDup_lookup (children a m) k k' n (wf_nd a W m)).
Qed.
Lemma node_at_same {D} (a a' : arena D) r : (forall j, children a' j = children a j) -> forall i, node_at a' i r = node_at a i r.
Proof. intros HC. induction r as [|k r IH]; intros i; [done|]. cbn [node_at]. rewrite HC. by destruct (_ !! _). Qed.
Lemma navigate_node_at a r : forall i n, node_at a i r = Some n -> navigate a i r = Val n.
Proof.
  induction r as [|k r IH]; intros i n; cbn [node_at navigate]; [by intros [= ->]|]. destruct (_ !! _); [apply IH|done].
Qed.
Lemma find_node_at cb a r n : node_at a cb r = Some n -> find_node cb a [] (0 :: r) = Val n.
Proof. intros E. cbn [find_node]. unfold get_slot_root. cbn. by apply navigate_node_at. Qed.

Lemma hat_snoc r : forall h k, hat h (r ++ [k]) = match hat h r with Some u => hchildren u !! k | None => None end.
Proof.
  induction r as [|j r IH]; intros h k; cbn [hat app].
  - by destruct (hchildren h !! k).
  - destruct (hchildren h !! j); [apply IH|done].
Qed.
Lemma hat_app r r' : forall h, hat h (r ++ r') = match hat h r with Some u => hat u r' | None => None end.
Proof. induction r as [|j r IH]; intros h; cbn [hat app]; [done|]. destruct (hchildren h !! j); [apply IH|done]. Qed.

Lemma spots_in_elem p cs : forall cs' k q x, (q, x) ∈ spots_in p k cs cs' <->
  exists j c c', cs !! j = Some c /\ cs' !! j = Some c' /\ (q, x) ∈ spots (p ++ [k + j]) c c'.
Proof.
  induction cs as [|c cs IH]; intros [|c' cs'] k q x; cbn [spots_in].
  1,2,3: split; [intros Hx; by apply elem_of_nil in Hx|intros (j & d & d' & E1 & E2 & _); by destruct j].
  rewrite elem_of_app, IH. split.
  - intros [Hx|(j & d & d' & E1 & E2 & Hx)].
    + exists 0, c, c'. by rewrite Nat.add_0_r.
    + exists (S j), d, d'. split; [done|]. split; [done|]. by replace (k + S j) with (S k + j) by lia.
  - intros ([|j] & d & d' & E1 & E2 & Hx).
    + left. cbn in E1, E2. injection E1 as ->. injection E2 as ->. by rewrite Nat.add_0_r in Hx.
    + right. exists j, d, d'. split; [done|]. split; [done|]. by replace (S k + j) with (k + S j) by lia.
Qed.

Lemma spots_hat h : forall p h' q u v, (q, (u, v)) ∈ spots p h h' ->
  exists r, q = (p ++ r)%list /\ hat h r = Some u /\ hat h' r = Some v.
Proof.
  induction h as [s|s|tag ns l cs IH] using htree_ind'; intros p h' q u v.
  1,2: cbn [spots]; intros Hx; apply elem_of_list_singleton in Hx as [= -> -> ->]; exists []; by rewrite app_nil_r.
  destruct h' as [tag' ns' l' cs'|s|s].
  2,3: cbn [spots]; intros Hx; apply elem_of_list_singleton in Hx as [= -> -> ->]; exists []; by rewrite app_nil_r.
  rewrite spots_elem. intros Hx. apply elem_of_cons in Hx as [[= -> -> ->]|Hx]; [exists []; by rewrite app_nil_r|].
  destruct (is_opaque_props l); [by apply elem_of_nil in Hx|].
  apply spots_in_elem in Hx as (j & c & c' & E1 & E2 & Hx). cbn [Nat.add] in Hx.
  apply IH in Hx as (r & -> & H1 & H2); [|by eapply elem_of_list_lookup_2].
  exists (j :: r). rewrite <- app_assoc. split; [done|]. cbn [hat hchildren]. by rewrite E1, E2.
Qed.

Lemma spots_nodup h : forall p h', NoDup (map fst (spots p h h')).
Proof.
  induction h as [s|s|tag ns l cs IH] using htree_ind'; intros p h'; [apply NoDup_singleton|apply NoDup_singleton|].
  destruct h' as [tag' ns' l' cs'|s|s]; [|apply NoDup_singleton|apply NoDup_singleton].
  rewrite spots_elem. cbn [map fst]. constructor.
  - intros Hx. destruct (is_opaque_props l); [by apply elem_of_nil in Hx|].
    apply elem_of_list_fmap in Hx as ([q [u v]] & Eq & Hx). cbn [fst] in Eq. subst q.
    apply spots_in_elem in Hx as (j & c & c' & _ & _ & Hx). apply spots_hat in Hx as (r & Er & _).
    apply (f_equal length) in Er. rewrite !app_length in Er. cbn in Er. lia.
  - destruct (is_opaque_props l); [constructor|]. generalize 0. revert cs'.
    induction cs as [|c cs IHc]; intros [|c' cs'] k; cbn [spots_in map]; try constructor.
    rewrite map_app. apply NoDup_app. split; [apply IH; left|]. split; [|apply IHc; intros x Hx; apply IH; by right].
    intros q H1 H2. apply elem_of_list_fmap in H1 as ([q1 [u1 v1]] & -> & H1). apply elem_of_list_fmap in H2 as ([q2 [u2 v2]] & E & H2).
    cbn [fst] in E. subst q2. apply spots_hat in H1 as (r1 & -> & _). apply spots_in_elem in H2 as (j & d & d' & _ & _ & H2).
    apply spots_hat in H2 as (r2 & E & _). rewrite <- !app_assoc in E. apply app_inv_head in E. cbn in E. injection E. lia.
Qed.

Lemma edits_list_nodup W : NoDup (map fst W) -> NoDup (flat_map edits W).
Proof.
  induction W as [|w W IH]; intros ND; cbn [map flat_map] in *; [constructor|]. apply NoDup_cons in ND as [N1 N2].
  apply NoDup_app. split; [apply edits_nodup|]. split; [|by apply IH]. intros e E1 E2. apply edits_path in E1.
  apply elem_flat_map in E2 as (x & Hx & E2). apply edits_path in E2. apply N1. rewrite <- E1, E2. by apply elem_of_list_fmap_1.
Qed.

(** ** One element *)

Section Attrs.
  Variables valid_elem valid_attr : string -> bool.

  Lemma b_set_changes_says ns x : NoDup (map bname (keys x)) -> forall y ch l,
    says x y ch -> (forall q, q ∈ keys y -> ok_attr valid_attr q) ->
    NoDup (keys l ++ map flat (map bname (keys y)))%list ->
    b_set_changes valid_attr ns (battrs x) l ch = ((l ++ battrs y)%list, true).
  Proof.
    intros Hx. unfold says. induction y as [|[q v] y IH]; intros ch l HS Hok Hnd.
    - apply Forall2_nil_inv_r in HS as ->. cbn [b_set_changes]. by rewrite app_nil_r.
    - apply Forall2_cons_inv_r in HS as (c & ch' & [Hn Hv] & HS & ->). cbn [b_set_changes]. rewrite Hn. cbn [fst snd] in *.
      assert (ok_attr valid_attr q) as Hq by (apply Hok; left).
      set (w := match pc_value c with Some v => v | None => _ end).
      assert (w = v) as ->.
      { unfold w. destruct (pc_value c); [done|]. rewrite (bname_up_ok valid_attr) by done.
        by rewrite (last_value_battrs x q v) by (try done; by apply attr_get_elem). }
      rewrite (bname_up_ok valid_attr) by done. unfold b_set_attr. pose proof Hq as (Hvq & _). rewrite Hvq.
      rewrite (ok_in_case valid_attr ns q) by done. cbn [keys map fst] in Hnd.
      rewrite attr_set_fresh. 2:{ intros Hin. apply NoDup_app in Hnd as (_ & Hd & _). apply (Hd _ Hin). left. }
      rewrite IH; [by rewrite <- app_assoc|done|intros; apply Hok; by right|].
      unfold keys at 1. rewrite map_app. cbn [map fst]. by rewrite <- app_assoc.
  Qed.

  Lemma says_no_text x y ch : says x y ch ->
    find (fun c => match pc_name c with PText => true | PAttr _ => false end) ch = None.
  Proof. unfold says. induction 1 as [|c kv ch y [Hn _] _ IH]; [done|]. cbn [find]. by rewrite Hn. Qed.
End Attrs.

(** ** All edits *)

Section Mirror.
  Variables valid_elem valid_attr : string -> bool.
  Variable parse_template : string -> list htree.
  Variables (C : arena dnode) (cb : nat).
  Hypothesis WC : wf C.
  Variables ts ts' : list htree.
  Hypothesis HF : Forall2 edited ts ts'.
  Hypothesis HM : mirrors_list C ts (children C cb).
  Hypothesis OKO : forall h, h ∈ ts -> names_ok valid_elem valid_attr h.
  Hypothesis OKN : forall h, h ∈ ts' -> names_ok valid_elem valid_attr h.
  Local Notation H0 := (HElem "" NsHtml [] ts).
  Local Notation H1 := (HElem "" NsHtml [] ts').
  Local Notation S0 := (spots_in [0] 0 ts ts').

  Lemma names_child t n l cs c : names_ok valid_elem valid_attr (HElem t n l cs) -> c ∈ cs -> names_ok valid_elem valid_attr c.
  Proof.
    intros [_ HA] Hc. induction cs as [|d cs IH]; [by apply elem_of_nil in Hc|]. destruct HA as [HA1 HA2].
    apply elem_of_cons in Hc as [->|Hc]; [done|by apply IH].
  Qed.

  Definition place (w : path * (htree * htree)) (n : nat) : Prop :=
    let '(q, (u, v)) := w in exists r, q = 0 :: r /\ node_at C cb r = Some n.

  Lemma spot_walk h : forall h' r i, edited h h' -> mirrors C h i -> node_at C cb r = Some i ->
    names_ok valid_elem valid_attr h -> names_ok valid_elem valid_attr h' ->
    forall q u v, (q, (u, v)) ∈ spots (0 :: r) h h' ->
    exists n, place (q, (u, v)) n /\ mirrors C u n /\ edited u v /\ names_ok valid_elem valid_attr u /\ names_ok valid_elem valid_attr v.
  Proof using WC.
    induction h as [s|s|tg n0 l cs IH] using htree_ind'; intros h' r i HE Hm Hr N1 N2 q u v Hx.
    1,2: cbn [spots] in Hx; apply elem_of_list_singleton in Hx as [= -> -> ->]; exists i; split; [by exists r|done].
    assert (exists l' cs', h' = HElem tg n0 l' cs') as (l' & cs' & ->) by (inversion HE; subst; eauto).
    rewrite spots_elem in Hx. apply elem_of_cons in Hx as [[= -> -> ->]|Hx]; [exists i; split; [by exists r|done]|].
    destruct (is_opaque_props l) eqn:Eo; [by apply elem_of_nil in Hx|].
    apply spots_in_elem in Hx as (j & c & c' & E1 & E2 & Hx). cbn [Nat.add] in Hx.
    pose proof (edited_children _ _ HE Eo) as HFc. cbn [hchildren] in HFc.
    apply mirrors_elem in Hm as [_ Hm]. destruct (Hm Eo) as (l1 & E & Hl & _ & HL).
    destruct (Forall2_lookup_l _ _ _ _ _ HL E1) as (i' & Hi' & Hmi).
    pose proof (elem_of_list_lookup_2 _ _ _ E1) as Hc. pose proof (elem_of_list_lookup_2 _ _ _ E2) as Hc'.
    apply (IH c Hc c' (r ++ [j])%list i'); [|done| |exact (names_child _ _ _ _ _ N1 Hc)|exact (names_child _ _ _ _ _ N2 Hc')|done].
    - exact (Forall2_lookup_lr _ _ _ _ _ _ HFc E1 E2).
    - rewrite node_at_snoc, Hr, Hl. by apply lookup_app_l_Some.
  Qed.

  Lemma spot_place q u v : (q, (u, v)) ∈ S0 ->
    exists n, place (q, (u, v)) n /\ mirrors C u n /\ edited u v /\ names_ok valid_elem valid_attr u /\ names_ok valid_elem valid_attr v.
  Proof using WC HF HM OKO OKN.
    intros Hx. apply spots_in_elem in Hx as (j & c & c' & E1 & E2 & Hx). cbn [Nat.add app] in Hx.
    destruct HM as (l1 & E & Hl & _ & HL). destruct (Forall2_lookup_l _ _ _ _ _ HL E1) as (i' & Hi' & Hmi).
    apply (spot_walk c c' [j] i'); [| |cbn [node_at]; rewrite Hl, (lookup_app_l_Some _ _ _ _ Hi'); done| | |done].
    - exact (Forall2_lookup_lr _ _ _ _ _ _ HF E1 E2).
    - done.
    - by eapply OKO, elem_of_list_lookup_2.
    - by eapply OKN, elem_of_list_lookup_2.
  Qed.

  Lemma spot_hat q u v : (q, (u, v)) ∈ S0 -> exists r, q = 0 :: r /\ hat H0 r = Some u /\ hat H1 r = Some v.
  Proof using.
    intros Hx. apply (spots_hat H0 [0] H1). rewrite spots_elem. cbn. by right.
  Qed.

  Lemma spot_unique w w' n : w ∈ S0 -> w' ∈ S0 -> place w n -> place w' n -> w = w'.
  Proof using WC.
    destruct w as [q [u v]], w' as [q' [u' v']]. intros Hw Hw' (r & -> & Hr) (r' & -> & Hr').
    assert (r' = r) as -> by (by apply (node_at_inj C cb WC r' r n)).
    apply spot_hat in Hw as (r1 & [= <-] & K1 & K2). apply spot_hat in Hw' as (r2 & [= <-] & K3 & K4). congruence.
  Qed.

  (** While the edits [todo] are still to be made. *)
  Record underway (a : arena dnode) (todo : list (path * edit)) : Prop := {
    uw_wf : wf a;
    uw_len : length a = length C;
    uw_children : forall j, children a j = children C j;
    uw_parent : forall j, parent a j = parent C j;
    uw_old : forall w n, w ∈ S0 -> place w n -> (exists e, e ∈ own_edits w /\ e ∈ todo) -> looks a (fst (snd w)) n;
    uw_new : forall w n, w ∈ S0 -> place w n -> (forall e, e ∈ own_edits w -> e ∉ todo) -> looks a (snd (snd w)) n;
    uw_either : forall w n, w ∈ S0 -> place w n -> looks a (fst (snd w)) n \/ looks a (snd (snd w)) n;
    uw_rest : forall j, data a j <> data C j -> exists w, w ∈ S0 /\ place w j /\ own_edits w <> []
  }.

  Lemma underway_start es : es ≡ₚ flat_map edits S0 -> underway C es.
  Proof using WC HF HM OKO OKN.
    intros PE. split; try done.
    - intros [q [u v]] n Hw Hp _. destruct (spot_place q u v Hw) as (n' & Hp' & Hm & _).
      assert (n' = n) as -> by (destruct Hp as (r & -> & E), Hp' as (r' & [= <-] & E'); congruence). by apply mirrors_looks.
    - intros [q [u v]] n Hw Hp Hno. destruct (spot_place q u v Hw) as (n' & Hp' & Hm & HE & _).
      assert (n' = n) as -> by (destruct Hp as (r & -> & E), Hp' as (r' & [= <-] & E'); congruence).
      assert (own_edits (q, (u, v)) = []) as E0.
      { destruct (own_edits (q, (u, v))) as [|e l] eqn:E; [done|]. exfalso. apply (Hno e); [left|].
        rewrite PE. apply elem_flat_map. exists (q, (u, v)). split; [done|]. unfold edits. rewrite E. left. }
      apply mirrors_looks in Hm. cbn [fst snd]. unfold own_edits in E0. inversion HE; subst.
      + destruct (string_dec s s') as [->|]; done.
      + destruct (string_dec s s') as [->|]; done.
      + destruct (attrs_eq_dec l l') as [->|]; done.
      + destruct (attrs_eq_dec l l') as [->|]; done.
    - intros [q [u v]] n Hw Hp. left. destruct (spot_place q u v Hw) as (n' & Hp' & Hm & _).
      assert (n' = n) as -> by (destruct Hp as (r & -> & E), Hp' as (r' & [= <-] & E'); congruence). by apply mirrors_looks.
  Qed.

  (** A change of the node of one place. *)
  Lemma underway_set a e todo w n k d : underway a (e :: todo) -> w ∈ S0 -> place w n -> own_edits w = [e] -> e ∉ todo ->
    data a n = Some d -> looks (set_kind a n k) (snd (snd w)) n -> underway (set_kind a n k) todo.
  Proof using WC.
    intros U Hw Hp He Hnt Hd HL.
    assert (forall j, data (set_kind a n k) j = if Nat.eqb j n then Some (mkD k (d_ns d)) else data a j) as DD.
    { intros j. unfold set_kind. rewrite Hd. apply data_set_data. by eapply data_lt. }
    assert (forall w' n', w' ∈ S0 -> place w' n' -> w' <> w -> n' <> n) as Hne.
    { intros w' n' Hw' Hp' Hn ->. by apply Hn, (spot_unique w' w n). }
    assert (forall h n', n' <> n -> looks a h n' -> looks (set_kind a n k) h n') as HLK.
    { intros h n' Hn. unfold looks, node_kind. rewrite DD. by rewrite (proj2 (Nat.eqb_neq n' n) Hn). }
    assert (forall w', w' ∈ S0 -> w' <> w -> forall e', e' ∈ own_edits w' -> e' <> e) as Hee.
    { intros w' Hw' Hn e' He' ->. apply Hn.
      assert (e ∈ own_edits w) as He0 by (rewrite He; left).
      assert (forall x y, x ∈ own_edits y -> fst x = fst y) as HP.
      { intros x y Hx. apply edits_path. unfold edits. apply elem_of_app. by left. }
      pose proof (HP _ _ He') as P1. pose proof (HP _ _ He0) as P2.
      destruct w as [q [u v]], w' as [q' [u' v']]. cbn [fst] in *.
      apply spot_hat in Hw as (r1 & -> & K1 & K2). apply spot_hat in Hw' as (r2 & -> & K3 & K4).
      assert (r2 = r1) as -> by congruence. congruence. }
    split.
    - unfold set_kind. rewrite Hd. apply wf_set_data, U.
    - unfold set_kind. rewrite Hd, length_set_data. apply U.
    - intros j. unfold set_kind. rewrite Hd, children_set_data. apply U.
    - intros j. unfold set_kind. rewrite Hd, parent_set_data. apply U.
    - intros w' n' Hw' Hp' (e' & He' & Hin). destruct (decide (n' = n)) as [->|Hn].
      + pose proof (spot_unique w' w n Hw' Hw Hp' Hp) as ->. rewrite He in He'. apply elem_of_list_singleton in He' as ->. done.
      + apply HLK; [done|]. apply (uw_old _ _ U w' n' Hw' Hp'). exists e'. split; [done|by right].
    - intros w' n' Hw' Hp' Hno. destruct (decide (n' = n)) as [->|Hn].
      + by pose proof (spot_unique w' w n Hw' Hw Hp' Hp) as ->.
      + apply HLK; [done|]. apply (uw_new _ _ U w' n' Hw' Hp'). intros e' He' Hin.
        apply elem_of_cons in Hin as [->|Hin]; [|by apply (Hno e')].
        apply (Hee w' Hw') with e; [|done|done]. intros ->. apply Hn.
        destruct w as [q [u v]], Hp as (r & -> & E), Hp' as (r' & [= <-] & E'). congruence.
    - intros w' n' Hw' Hp'. destruct (decide (n' = n)) as [->|Hn].
      + right. by pose proof (spot_unique w' w n Hw' Hw Hp' Hp) as ->.
      + destruct (uw_either _ _ U w' n' Hw' Hp'); [left|right]; by apply HLK.
    - intros j. rewrite DD. destruct (Nat.eqb_spec j n) as [->|]; [|apply U]. intros _. exists w. split; [done|]. split; [done|]. by rewrite He.
  Qed.

  Lemma underway_edit e todo p a w : edit_for e p -> e ∉ todo -> w ∈ S0 -> e ∈ edits w -> underway a (e :: todo) ->
    exists a', b_apply_patch valid_elem valid_attr parse_template cb (a, []) p = ((a', []), Val tt) /\ underway a' todo.
  Proof using WC HF HM OKO OKN.
    intros HP Hnt Hw He U. destruct w as [q [u v]].
    destruct (spot_place q u v Hw) as (n & Hp & Hm & HE & N1 & N2).
    pose proof Hp as (r & -> & Hr).
    assert (find_node cb a [] (0 :: r) = Val n) as Hfind.
    { apply find_node_at. by rewrite (node_at_same C a r (uw_children _ _ U)). }
    unfold edits in He. apply elem_of_app in He as [He|He].
    - (* own *)
      assert (looks a u n) as HL.
      { apply (uw_old _ _ U (0 :: r, (u, v)) n Hw Hp). exists e. split; [done|left]. }
      destruct u as [tg n0 l cs|s|s], v as [tg' n0' l' cs'|s'|s']; try (by apply elem_of_nil in He).
      + assert (own_edits (0 :: r, (HElem tg n0 l cs, HElem tg' n0' l' cs')) = [e]) as Ee.
        { unfold own_edits in *. destruct (attrs_eq_dec l l'); [by apply elem_of_nil in He|]. by apply elem_of_list_singleton in He as ->. }
        unfold own_edits in He. destruct (attrs_eq_dec l l'); [by apply elem_of_nil in He|]. apply elem_of_list_singleton in He as ->.
        unfold edit_for in HP. cbn [fst snd] in HP. destruct HP as (ch & -> & HS). cbn [fst snd] in *.
        cbn [looks] in HL. unfold node_kind in HL. destruct (data a n) as [[kd nsp]|] eqn:Ed; [|done]. cbn [option_map d_kind] in HL. injection HL as ->.
        destruct N1 as [[_ O1] _], N2 as [[_ O2] _].
        exists (set_kind a n (NElem tg (battrs l'))). split.
        * cbn [b_apply_patch]. unfold with_found. cbn [fst snd]. rewrite Hfind, (says_no_text _ _ _ HS), Ed.
          rewrite (b_clear_battrs valid_attr nsp l O1). destruct O1 as [_ O1]. destruct O2 as [O2 O3].
          rewrite (b_set_changes_says valid_attr nsp l O1 l' ch [] HS O2); [done|].
          cbn [keys map app]. by apply (NoDup_fmap_2 _ _).
        * apply (underway_set a _ todo _ n _ _ U Hw Hp Ee Hnt Ed). cbn [snd looks].
          assert (tg' = tg) as -> by (by inversion HE). unfold node_kind, set_kind. rewrite Ed.
          rewrite data_set_data by (by eapply data_lt). by rewrite Nat.eqb_refl.
      + assert (own_edits (0 :: r, (HText s, HText s')) = [e]) as Ee.
        { unfold own_edits in *. destruct (string_dec s s'); [by apply elem_of_nil in He|]. by apply elem_of_list_singleton in He as ->. }
        unfold own_edits in He. destruct (string_dec s s'); [by apply elem_of_nil in He|]. apply elem_of_list_singleton in He as ->.
        unfold edit_for in HP. cbn [fst snd] in HP. subst p. cbn [looks] in HL. exists (set_kind a n (NText s')). split.
        * cbn [b_apply_patch]. unfold with_found. cbn [fst snd]. rewrite Hfind. unfold set_text_content. by rewrite HL.
        * unfold node_kind in HL. destruct (data a n) as [d|] eqn:Ed; [|done].
          apply (underway_set a _ todo _ n _ _ U Hw Hp Ee Hnt Ed). cbn [snd looks]. unfold node_kind, set_kind. rewrite Ed.
          rewrite data_set_data by (by eapply data_lt). by rewrite Nat.eqb_refl.
      + assert (own_edits (0 :: r, (HComment s, HComment s')) = [e]) as Ee.
        { unfold own_edits in *. destruct (string_dec s s'); [by apply elem_of_nil in He|]. by apply elem_of_list_singleton in He as ->. }
        unfold own_edits in He. destruct (string_dec s s'); [by apply elem_of_nil in He|]. apply elem_of_list_singleton in He as ->.
        unfold edit_for in HP. cbn [fst snd] in HP. subst p. cbn [looks] in HL. exists (set_kind a n (NComment s')). split.
        * cbn [b_apply_patch]. unfold with_found. cbn [fst snd]. rewrite Hfind. unfold set_text_content. by rewrite HL.
        * unfold node_kind in HL. destruct (data a n) as [d|] eqn:Ed; [|done].
          apply (underway_set a _ todo _ n _ _ U Hw Hp Ee Hnt Ed). cbn [snd looks]. unfold node_kind, set_kind. rewrite Ed.
          rewrite data_set_data by (by eapply data_lt). by rewrite Nat.eqb_refl.
    - (* content of an opaque element: nothing happens *)
      unfold content_edits in He. destruct (hopaque u) eqn:Ho; [|by apply elem_of_nil in He]. cbn [andb] in He.
      destruct (same_bare u v) eqn:Eb; [by apply elem_of_nil in He|]. cbn [negb] in He. apply elem_of_list_singleton in He as ->.
      unfold edit_for in HP. cbn [fst snd] in HP. subst p.
      assert (exists tg l, node_kind a n = Some (NElem tg l)) as (tg & l & Hk).
      { destruct u as [tg n0 l cs|s|s]; [|done|done].
        assert (exists l' cs', v = HElem tg n0 l' cs') as (l' & cs' & ->) by (inversion HE; subst; eauto).
        destruct (uw_either _ _ U _ n Hw Hp) as [HL|HL]; cbn [fst snd looks] in HL; eauto. }
      exists a. split.
      + cbn [b_apply_patch]. unfold with_found. cbn [fst snd]. by rewrite Hfind, Hk.
      + assert (forall w' e', e' ∈ own_edits w' -> e' <> (0 :: r, EContent (hchildren v))) as Hno.
        { intros [q' [u' v']] e' He' ->. unfold own_edits in He'.
          destruct u' as [|s|s], v' as [|s'|s']; try (by apply elem_of_nil in He');
            repeat match type of He' with context [if ?b then _ else _] => destruct b end; try (by apply elem_of_nil in He');
            apply elem_of_list_singleton in He'; discriminate. }
        destruct U as [U1 U2 U3 U4 U5 U6 U7 U8]. split; try done.
        * intros w' n' Hw' Hp' (e' & A & B). apply (U5 w' n' Hw' Hp'). exists e'. split; [done|by right].
        * intros w' n' Hw' Hp' HA. apply (U6 w' n' Hw' Hp'). intros e' He' Hin. apply elem_of_cons in Hin as [->|Hin]; [by apply (Hno w' _ He')|].
          by apply (HA e').
  Qed.

  Lemma underway_all : forall es ps a, Forall2 edit_for es ps -> NoDup es ->
    (forall e, e ∈ es -> exists w, w ∈ S0 /\ e ∈ edits w) -> underway a es ->
    exists a', b_apply_all valid_elem valid_attr parse_template cb (a, []) ps = ((a', []), Val tt) /\ underway a' [].
  Proof using WC HF HM OKO OKN.
    induction es as [|e es IH]; intros ps a HFe ND HW U.
    - apply Forall2_nil_inv_l in HFe as ->. by exists a.
    - apply Forall2_cons_inv_l in HFe as (p & ps' & HP & HFe & ->). apply NoDup_cons in ND as [N1 N2].
      destruct (HW e ltac:(left)) as (w & Hw & He).
      destruct (underway_edit e es p a w HP N1 Hw He U) as (a1 & E1 & U1).
      destruct (IH ps' a1 HFe N2) as (a2 & E2 & U2); [intros e' He'; apply HW; by right|done|].
      exists a2. split; [|done]. cbn [b_apply_all]. by rewrite E1.
  Qed.

  Lemma empty_kept a i r u k e : underway a [] -> node_at C cb r = Some i -> hat H0 r = Some u ->
    children C i !! k = Some e -> length (hchildren u) <= k -> empty_leaf C e -> empty_leaf a e.
  Proof using WC.
    intros U Hr Hu Hk Hle [K1 K2]. split; [|by rewrite (uw_children _ _ U)].
    assert (data a e = data C e \/ data a e <> data C e) as [E|Hn].
    { destruct (data a e) as [[k1 n1]|], (data C e) as [[k2 n2]|]; try (by left); try (by right).
      assert ({k1 = k2} + {k1 <> k2}) as [->|] by (repeat (decide equality; try apply string_dec)).
      - assert ({n1 = n2} + {n1 <> n2}) as [->|] by (repeat decide equality); [by left|right; congruence].
      - right; congruence. }
    - unfold node_kind in *. by rewrite E.
    - exfalso. apply (uw_rest _ _ U) in Hn as ([q [u' v']] & Hw & Hp & _).
      apply spot_hat in Hw as (r1 & -> & Hh & _). destruct Hp as (r2 & [= <-] & Hr1).
      assert (node_at C cb (r ++ [k]) = Some e) as Hr2 by (rewrite node_at_snoc, Hr; done).
      rewrite (node_at_inj C cb WC _ _ _ Hr1 Hr2) in Hh. rewrite hat_snoc, Hu in Hh.
      apply lookup_lt_Some in Hh. lia.
  Qed.

  Lemma underway_mirrors a h : underway a [] -> forall h' r i, edited h h' -> mirrors C h i -> node_at C cb r = Some i ->
    hat H0 r = Some h -> (forall w, w ∈ spots (0 :: r) h h' -> w ∈ S0) -> mirrors a h' i.
  Proof using WC.
    intros U. induction h as [s|s|tg n0 l cs IH] using htree_ind'; intros h' r i HE Hm Hr Hh HS.
    1,2: assert (looks a h' i) as HL by
      (eapply (uw_new _ _ U (0 :: r, (_, h')) i);
       [apply HS; cbn [spots]; left|by exists r|intros e _ Hx; by apply elem_of_nil in Hx]);
      inversion HE; subst; cbn [looks mirrors] in *; (split; [done|]); rewrite (uw_children _ _ U); apply Hm.
    assert (exists l' cs', h' = HElem tg n0 l' cs') as (l' & cs' & ->) by (inversion HE; subst; eauto).
    rewrite spots_elem in HS. apply mirrors_elem. split.
    { apply (uw_new _ _ U (0 :: r, (HElem tg n0 l cs, HElem tg n0 l' cs')) i); [apply HS; left|by exists r|].
      intros e _ Hx. by apply elem_of_nil in Hx. }
    intros Ho'. assert (is_opaque_props l = false) as Ho by (inversion HE; subst; congruence).
    rewrite Ho in HS. pose proof (edited_children _ _ HE Ho) as HFc. cbn [hchildren] in HFc.
    apply mirrors_elem in Hm as [_ Hm]. destruct (Hm Ho) as (l1 & E & Hl & HEm & HL).
    exists l1, E. rewrite (uw_children _ _ U). split; [done|]. split.
    - intros e He. apply elem_of_list_lookup_1 in He as (k & Hk).
      apply (empty_kept a i r (HElem tg n0 l cs) (length l1 + k) e U Hr Hh); [| |apply HEm; by eapply elem_of_list_lookup_2].
      + rewrite Hl, lookup_app_r by lia. by replace (length l1 + k - length l1) with k by lia.
      + cbn [hchildren]. rewrite (Forall2_length _ _ _ HL). lia.
    - apply Forall2_same_length_lookup_2; [rewrite <- (Forall2_length _ _ _ HFc); by apply (Forall2_length _ _ _ HL)|].
      intros j c' x Hc' Hx. destruct (Forall2_lookup_r _ _ _ _ _ HFc Hc') as (c & Hc & Hcc).
      pose proof (Forall2_lookup_lr _ _ _ _ _ _ HL Hc Hx) as Hmx.
      apply (IH c (elem_of_list_lookup_2 _ _ _ Hc) c' (r ++ [j])%list x Hcc Hmx).
      + rewrite node_at_snoc, Hr, Hl. by apply lookup_app_l_Some.
      + by rewrite hat_snoc, Hh.
      + intros [q x'] Hw. apply HS. right. apply spots_in_elem. exists j, c, c'. cbn [Nat.add]. done.
  Qed.

  Theorem mirror_in_place es ps : es ≡ₚ flat_map edits S0 -> Forall2 edit_for es ps ->
    exists a, b_apply_all valid_elem valid_attr parse_template cb (C, []) ps = ((a, []), Val tt) /\
      underway a [] /\ mirrors_list a ts' (children a cb).
  Proof using WC HF HM OKO OKN.
    intros PE HFe.
    destruct (underway_all es ps C HFe) as (a & Ea & U).
    { rewrite PE. apply edits_list_nodup. pose proof (spots_nodup H0 [0] H1) as ND. rewrite spots_elem in ND.
      cbn [map] in ND. by apply NoDup_cons in ND as [_ ND]. }
    { intros e He. rewrite PE in He. apply elem_flat_map in He. done. }
    { by apply underway_start. }
    exists a. split; [done|]. split; [done|].
    destruct HM as (l1 & E & Hl & HEm & HL). exists l1, E. rewrite (uw_children _ _ U). split; [done|]. split.
    - intros e He. apply elem_of_list_lookup_1 in He as (k & Hk).
      apply (empty_kept a cb [] H0 (length l1 + k) e U eq_refl eq_refl); [| |apply HEm; by eapply elem_of_list_lookup_2].
      + rewrite Hl, lookup_app_r by lia. by replace (length l1 + k - length l1) with k by lia.
      + cbn [hchildren]. rewrite (Forall2_length _ _ _ HL). lia.
    - apply Forall2_same_length_lookup_2; [rewrite <- (Forall2_length _ _ _ HF); by apply (Forall2_length _ _ _ HL)|].
      intros j c' x Hc' Hx. destruct (Forall2_lookup_r _ _ _ _ _ HF Hc') as (c & Hc & Hcc).
      pose proof (Forall2_lookup_lr _ _ _ _ _ _ HL Hc Hx) as Hmx.
      apply (underway_mirrors a c U c' [j] x Hcc Hmx).
      + cbn [node_at]. rewrite Hl. by rewrite (lookup_app_l_Some _ _ _ _ Hx).
      + cbn [hat hchildren]. by rewrite Hc.
      + intros [q x'] Hw. apply spots_in_elem. exists j, c, c'. done.
  Qed.
End Mirror.
