(** From the phase runs of [ConvProofs] to whole round trips: the initial state
    of the simulation, phase 1, and what the final state shows. *)
From stdpp Require Import list_numbers.
From Verif Require Import Base Arena Matching Chawathe Dom HtmlDiff
  AttrProofs MatchProofs ArenaProofs ArenaOps TreeProofs DtreeProofs ScriptProofs DomTree BuildProofs
  ApplyProofs FrameProofs ShadowProofs SimProofs Applier ConvProofs.

(** ** What a DOM node shows, up to trailing empty texts and namespaces *)

(** [va]: how the attributes are stored. *)
Fixpoint shows_v (va : attrs -> attrs) (a : arena dnode) (t : htree) (i : nat) {struct t} : Prop :=
  match t with
  | HText s => node_kind a i = Some (NText s) /\ children a i = []
  | HComment s => node_kind a i = Some (NComment s) /\ children a i = []
  | HElem tag ns ats cs =>
      node_kind a i = Some (NElem tag (va ats)) /\
      exists l E, children a i = l ++ E /\ (forall e, e ∈ E -> empty_leaf a e) /\
      (fix all (cs : list htree) (l : list nat) : Prop :=
         match cs, l with
         | [], [] => True
         | c :: cs', j :: l' => shows_v va a c j /\ all cs' l'
         | _, _ => False
         end) cs l
  end.

Definition shows_list_v (va : attrs -> attrs) (a : arena dnode) (ts : list htree) (l : list nat) : Prop :=
  exists l1 E, l = l1 ++ E /\ (forall e, e ∈ E -> empty_leaf a e) /\ Forall2 (shows_v va a) ts l1.

Lemma shows_elem va a tag ns ats cs i :
  shows_v va a (HElem tag ns ats cs) i <->
  node_kind a i = Some (NElem tag (va ats)) /\ shows_list_v va a cs (children a i).
Proof.
  cbn [shows_v]. unfold shows_list_v.
  assert (forall cs l, (fix all (cs : list htree) (l : list nat) : Prop :=
         match cs, l with
         | [], [] => True
         | c :: cs', j :: l' => shows_v va a c j /\ all cs' l'
         | _, _ => False
         end) cs l <-> Forall2 (shows_v va a) cs l) as HF.
  { clear. induction cs as [|c cs IH]; intros [|j l]; split; try done; try (intros HH; inversion HH; fail).
    - intros [H1 H2]. constructor; [done|by apply IH].
    - intros HH. inversion HH; subst. split; [done|by apply IH]. }
  split; intros [Hk (l & E & H1 & H2 & H3)]; (split; [done|]); exists l, E; (split; [done|]); (split; [done|]); by apply HF.
Qed.

Notation shows := (shows_v (fun l => l)).
Notation shows_list := (shows_list_v (fun l => l)).

Lemma norm_empty t : norm t = HText ""%string -> t = HText ""%string.
Proof. by destruct t. Qed.

Lemma norms_cons t l : t <> HText ""%string -> norms (t :: l) = norm t :: norms l.
Proof. intros Ht. destruct t as [| [|]|]; done. Qed.

Lemma norms_forall2 ts' ts : Forall2 (fun t' t => norm t' = norm t) ts' ts -> norms ts' = norms ts.
Proof.
  induction 1 as [|t' t ts' ts Hn _ IH]; [done|].
  assert (t = HText ""%string \/ t <> HText ""%string) as [->|Hne].
  { destruct t as [| [|]|]; auto; right; done. }
  - apply norm_empty in Hn. subst t'. exact IH.
  - rewrite !norms_cons; [by rewrite Hn, IH|done|]. intros ->. symmetry in Hn. by apply norm_empty in Hn.
Qed.

Lemma norms_app l k : norms (l ++ k) = norms l ++ norms k.
Proof.
  induction l as [|t l IH]; [done|]. rewrite <- app_comm_cons.
  assert (t = HText ""%string \/ t <> HText ""%string) as [->|Hne].
  { destruct t as [| [|]|]; auto; right; done. }
  - exact IH.
  - rewrite !norms_cons by done. by rewrite IH.
Qed.

Lemma norms_empties n : norms (replicate n (HText ""%string)) = [].
Proof. by induction n. Qed.

Lemma empties_hold a E : (forall e, e ∈ E -> empty_leaf a e) ->
  holds_list a (replicate (length E) (HText ""%string)) E.
Proof.
  induction E as [|e E IH]; intros HE; [constructor|]. simpl. constructor.
  - apply HE. left.
  - apply IH. intros e' He. apply HE. by right.
Qed.

Lemma shows_holds_list a ts l :
  (forall t, t ∈ ts -> forall i, shows a t i -> exists t', holds a t' i /\ norm t' = norm t) ->
  shows_list a ts l -> exists ts', holds_list a ts' l /\ norms ts' = norms ts.
Proof.
  intros IH (l1 & E & -> & HE & HF).
  assert (exists ts', holds_list a ts' l1 /\ Forall2 (fun t' t => norm t' = norm t) ts' ts) as (ts' & Hh & Hn).
  { clear HE. induction HF as [|t i ts l1 Ht HF IHF]; [exists []; by repeat constructor|].
    destruct IHF as (ts' & H1 & H2). { intros t0 Ht0. apply IH. by right. }
    destruct (IH t (elem_of_list_here _ _) i Ht) as (t' & H3 & H4).
    exists (t' :: ts'). by split; constructor. }
  exists (ts' ++ replicate (length E) (HText ""%string)). split.
  - apply Forall2_app; [done|by apply empties_hold].
  - rewrite norms_app, norms_empties, app_nil_r. by apply norms_forall2.
Qed.

Lemma shows_holds a t : forall i, shows a t i -> exists t', holds a t' i /\ norm t' = norm t.
Proof.
  induction t as [s|s|tag ns ats cs IH] using htree_ind'; intros i Hs.
  - exists (HText s). done.
  - exists (HComment s). done.
  - apply shows_elem in Hs as [Hk Hs].
    destruct (shows_holds_list a cs _ IH Hs) as (cs' & H1 & H2).
    unfold node_kind in Hk. destruct (data a i) as [d|] eqn:Ed; [|done]. injection Hk as Hk.
    exists (HElem tag (d_ns d) ats cs'). split.
    + apply holds_elem. split; [|done]. rewrite Ed. destruct d; simpl in *. congruence.
    + rewrite !norm_elem. by rewrite H2.
Qed.

Lemma shows_list_holds a ts l : shows_list a ts l -> exists ts', holds_list a ts' l /\ norms ts' = norms ts.
Proof. intros Hs. apply (shows_holds_list a ts l); [|done]. intros t _ i. apply shows_holds. Qed.

Lemma shows_body_html a ts b :
  wf a -> shows_list a ts (children a b) -> serialize_inner_html a b = Some (ser_ts false ts).
Proof.
  intros W Hs. destruct (shows_list_holds a ts _ Hs) as (ts' & H1 & H2).
  rewrite (serialize_inner_holds a ts' b W H1). f_equal. rewrite <- (ser_ts_norms false ts'), H2.
  apply ser_ts_norms.
Qed.

(** ** The final state *)

(** The node reached from [i] by a path of child positions. *)
Fixpoint node_at {D} (a : arena D) (i : nat) (q : list nat) : option nat :=
  match q with
  | [] => Some i
  | k :: q => match children a i !! k with Some c => node_at a c q | None => None end
  end.

Section Final.
  Context {H : Type} {OQ : opaques}.
  Variables (t : arena tdata) (tb : dtree H hkind attrs string) (rb : rose) (m : matching).
  Variables (Dn : arena dnode) (va : attrs -> attrs).
  Hypothesis PB : presents tb rb.
  Hypothesis BJ : bijection m.
  Hypothesis MR : get_b m 0 = Some (t_root tb).
  Hypothesis CB : t_children tb = children Dn.

  (** A new node's data, read off the tree it holds. *)
  Hypothesis KB : forall h y, holds Dn h y -> tkind tb y =
    match h with HElem tag _ ats _ => NElem tag ats | HText s => NText s | HComment s => NComment s end.

  Variables (s : shadow) (st : pstate) (f : nat -> nat) (dom : nat -> Prop) (kd : nat -> nkind)
    (bd : nat) (lb : list nat) (b2s : slots) (AP : parents).
  Hypothesis SM : sim s st f dom kd bd lb.
  Hypothesis IV : inv t tb m va s b2s (fun z => z < length t /\ get_b m z = None) no1 no1 dom kd AP.
  Hypothesis AL : forall y, y ∈ t_iter tb -> slot_get b2s y <> None.

  Lemma final_extra y x i c : y ∈ t_iter tb -> slot_get b2s y = Some x ->
    children (sh_arena s) x !! i = Some c -> length (t_children tb y) <= i ->
    empty_leaf (fst st) (f c).
  Proof.
    intros Hy Hx Hc Hi. pose proof (sw_wf _ (sm_sh _ _ _ _ _ _ _ SM)) as W.
    assert (real t b2s x) as Hrx by (right; eauto).
    pose proof (iv_dom _ _ _ _ _ _ _ _ _ _ _ _ IV _ Hrx) as Hdx.
    assert (c ∈ children (sh_arena s) x) as Hin by (by eapply elem_of_list_lookup_2).
    pose proof (sm_down _ _ _ _ _ _ _ SM _ _ Hdx Hin) as Hdc.
    pose proof (proj2 (wf_pc _ W _ _) Hin) as Hpc.
    destruct (iv_fake _ _ _ _ _ _ _ _ _ _ _ _ IV _ Hdc) as [Hr|[Hk Hch]].
    2:{ split; [rewrite (sm_kind _ _ _ _ _ _ _ SM _ Hdc); by rewrite Hk|].
        apply (sm_leaf _ _ _ _ _ _ _ SM _ Hdc). rewrite Hk. by intros []. }
    exfalso.
    assert (exists y', slot_get b2s y' = Some c) as [y' Hy'].
    { destruct Hr as [Hlt|Hr]; [|done]. destruct (get_b m c) as [y'|] eqn:Ec.
      - exists y'. by apply (iv_matched _ _ _ _ _ _ _ _ _ _ _ _ IV).
      - destruct (iv_del _ _ _ _ _ _ _ _ _ _ _ _ IV c) as (_ & _ & HN); [done|]. congruence. }
    pose proof (iv_iter _ _ _ _ _ _ _ _ _ _ _ _ IV _ _ Hy') as Hyi.
    destruct (decide (y' = t_root tb)) as [->|Hne].
    { pose proof (iv_matched _ _ _ _ _ _ _ _ _ _ _ _ IV _ _ MR) as H0.
      assert (c = 0) as -> by congruence.
      destruct (sm_root _ _ _ _ _ _ _ SM) as (_ & _ & s0 & Hs0 & Hc0).
      assert (0 ∈ children (sh_arena s) s0) as Hin0 by (rewrite Hc0; left).
      apply (wf_pc _ W) in Hin0. assert (s0 = x) as -> by congruence.
      apply elem_of_list_lookup_2, (wf_pc _ W) in Hs0.
      by destruct (sm_inner _ _ _ _ _ _ _ SM _ Hdx). }
    destruct (iv_placed _ _ _ _ _ _ _ _ _ _ _ _ IV y' Hyi Hne) as (py & x' & xp & H1 & H2 & H3 & H4); [by intros []|].
    assert (x' = c) as -> by congruence.
    assert (xp = x) as ->.
    { pose proof (elem_of_list_lookup_2 _ _ _ H4) as Hq. apply (wf_pc _ W) in Hq. congruence. }
    assert (py = y) as -> by (by apply (iv_inj _ _ _ _ _ _ _ _ _ _ _ _ IV x)).
    assert (t_position tb y' = i) as Ei by (eapply NoDup_lookup; [apply (wf_nd _ W x)|done|done]).
    destruct (pr_nonroot tb rb PB y' Hyi Hne) as (p & Hp & _ & Hl).
    assert (p = y) as -> by congruence. apply lookup_lt_Some in Hl. lia.
  Qed.

  Lemma final_child y x i yc : y ∈ t_iter tb -> slot_get b2s y = Some x ->
    t_children tb y !! i = Some yc ->
    yc ∈ t_iter tb /\ yc <> t_root tb /\
    exists xc, slot_get b2s yc = Some xc /\ children (sh_arena s) x !! i = Some xc.
  Proof.
    intros Hy Hx Hl. pose proof (elem_of_list_lookup_2 _ _ _ Hl) as Hin.
    destruct (pr_child tb rb PB y yc Hy Hin) as [Hyc Hpar].
    assert (yc <> t_root tb) as Hne.
    { intros ->. rewrite (pr_root tb rb PB) in Hpar. apply (pr_root_parent tb rb PB) in Hpar.
      apply Hpar. by rewrite <- (pr_iter tb rb PB). }
    split; [done|]. split; [done|].
    destruct (iv_placed _ _ _ _ _ _ _ _ _ _ _ _ IV yc Hyc Hne) as (py & xc & xp & H1 & H2 & H3 & H4); [by intros []|].
    assert (py = y) as -> by congruence. assert (xp = x) as -> by congruence.
    exists xc. split; [done|]. by rewrite (pr_child_pos tb rb PB y i yc Hy Hl) in H4.
  Qed.

  Lemma final_walk q : forall y x z, y ∈ t_iter tb -> slot_get b2s y = Some x -> node_at Dn y q = Some z ->
    z ∈ t_iter tb /\ exists xz, slot_get b2s z = Some xz /\ dom xz /\ node_at (fst st) (f x) q = Some (f xz).
  Proof.
    induction q as [|i q IH]; intros y x z Hy Hx; cbn [node_at].
    - intros [= ->]. split; [done|]. exists x. split; [done|]. split; [|done].
      apply (iv_dom _ _ _ _ _ _ _ _ _ _ _ _ IV). right. eauto.
    - destruct (children Dn y !! i) as [yc|] eqn:Ec; [|done]. intros Hz. rewrite <- CB in Ec.
      destruct (final_child y x i yc Hy Hx Ec) as (Hyc & _ & xc & Hxc & Hc).
      assert (dom x) as Hdx. { apply (iv_dom _ _ _ _ _ _ _ _ _ _ _ _ IV). right. eauto. }
      destruct st as [a sl]. cbn [fst] in *. rewrite (sim_child _ _ _ _ _ _ _ _ SM x i xc Hdx Hc).
      by apply (IH yc).
  Qed.

  Lemma final_kids y x cs : y ∈ t_iter tb -> slot_get b2s y = Some x ->
    holds_list Dn cs (t_children tb y) ->
    (forall h, h ∈ cs -> forall y x, holds Dn h y -> y ∈ t_iter tb -> y <> t_root tb ->
       slot_get b2s y = Some x -> shows_v va (fst st) h (f x)) ->
    shows_list_v va (fst st) cs (children (fst st) (f x)).
  Proof.
    intros Hy Hx Hh IH.
    assert (real t b2s x) as Hrx by (right; eauto).
    pose proof (iv_dom _ _ _ _ _ _ _ _ _ _ _ _ IV _ Hrx) as Hdx.
    destruct (sm_ch _ _ _ _ _ _ _ SM x Hdx) as (E & HE & HEl). rewrite HE.
    set (n := length (t_children tb y)). set (C := children (sh_arena s) x).
    exists (map f (take n C)), (map f (drop n C) ++ E). split; [|split].
    - by rewrite app_assoc, <- map_app, take_drop.
    - intros e He. apply elem_of_app in He as [He|He]; [|by apply HEl].
      apply elem_of_list_fmap in He as (c & -> & Hc). apply elem_of_list_lookup in Hc as [j Hj].
      rewrite lookup_drop in Hj. apply (final_extra y x (n + j) c); [done|done|done|]. fold n. lia.
    - apply Forall2_same_length_lookup_2.
      + apply Forall2_length in Hh. rewrite Hh. fold n. rewrite map_length, take_length.
        assert (n <= length C) as Hle; [|lia].
        destruct n as [|n'] eqn:En; [lia|].
        destruct (lookup_lt_is_Some_2 (t_children tb y) n') as [yc Hyc]; [unfold n in En; lia|].
        destruct (final_child y x n' yc Hy Hx Hyc) as (_ & _ & xc & _ & Hxc).
        apply lookup_lt_Some in Hxc. unfold C. lia.
      + intros i h j Hi Hj. rewrite list_lookup_fmap in Hj.
        apply fmap_Some in Hj as (c & Hc & ->).
        assert (i < n) as Hin.
        { apply lookup_lt_Some in Hi. apply Forall2_length in Hh. unfold n. lia. }
        rewrite lookup_take in Hc by done.
        destruct (lookup_lt_is_Some_2 (t_children tb y) i Hin) as [yc Hyc].
        destruct (final_child y x i yc Hy Hx Hyc) as (Hyi & Hne & xc & Hs & Hxc).
        assert (xc = c) as -> by (unfold C in Hc; congruence).
        apply (IH h (elem_of_list_lookup_2 _ _ _ Hi) yc c); try done.
        by apply (Forall2_lookup_lr _ _ _ i h yc Hh).
  Qed.

  Lemma final_shows h : forall y x, holds Dn h y -> y ∈ t_iter tb -> y <> t_root tb ->
    slot_get b2s y = Some x -> shows_v va (fst st) h (f x).
  Proof.
    induction h as [sx|sx|tag ns ats cs IH] using htree_ind'; intros y x Hh Hy Hne Hx;
      pose proof (KB _ _ Hh) as Hk;
      assert (dom x) as Hdx by (apply (iv_dom _ _ _ _ _ _ _ _ _ _ _ _ IV); right; eauto);
      pose proof (sm_kind _ _ _ _ _ _ _ SM x Hdx) as Hnk;
      pose proof (iv_kd _ _ _ _ _ _ _ _ _ _ _ _ IV _ _ Hx Hne) as Hkd; rewrite Hkd, Hk in Hnk; cbn [vkind] in Hnk.
    - split; [done|]. apply (sm_leaf _ _ _ _ _ _ _ SM _ Hdx). rewrite Hkd, Hk. by intros [].
    - split; [done|]. apply (sm_leaf _ _ _ _ _ _ _ SM _ Hdx). rewrite Hkd, Hk. by intros [].
    - apply shows_elem. split; [done|]. apply holds_elem in Hh as [_ Hh]. rewrite <- CB in Hh.
      by apply (final_kids y x cs).
  Qed.

  Lemma final_body ts : holds_list Dn ts (children Dn (t_root tb)) ->
    shows_list_v va (fst st) ts (children (fst st) bd).
  Proof.
    intros Hh. rewrite <- CB in Hh. destruct (sm_root _ _ _ _ _ _ _ SM) as (_ & Hf & _). rewrite <- Hf.
    apply (final_kids (t_root tb) 0 ts); [by eapply pr_root_iter| |done|].
    - by apply (iv_matched _ _ _ _ _ _ _ _ _ _ _ _ IV).
    - intros h _. apply final_shows.
  Qed.
End Final.

(** ** Phase 1 *)

(** What the nodes of the compared trees look like. *)
Definition shaped {H} (t : dtree H hkind attrs string) (i : nat) : Prop :=
  match t_kind t i with
  | KElem _ _ => t_text t i = None /\ NoDup (keys (t_props t i))
  | _ => t_props t i = [] /\ exists s, t_text t i = Some s
  end.

Local Notation ph1 := (phase1 String.eqb props_empty props_diff any_different
      (@length prop_change) (@length attr)).

Section Attrs.
  Context {H : Type} {OQ : opaques}.
  Variables (ta tb : dtree H hkind attrs string).
  Variables (va : attrs -> attrs) (okn : string -> attrs -> Prop)
    (shw : pstate -> pstate -> Prop) (ap : pstate -> patch -> presult).
  Hypothesis AO : applier va okn shw ap.

  (** Nothing, or one operation that turns the old data into the new. *)
  Lemma phase1_cases x y :
    shaped ta x -> shaped tb y -> t_kind ta x = t_kind tb y ->
    (ph1 ta tb [] [] (x, y) = [] /\ tkind ta x = tkind tb y) \/
    (exists s, ph1 ta tb [] [] (x, y) = [SetText x y s] /\ ~ elemk (tkind ta x) /\
       t_kind tb y <> KComment /\ tkind tb y = NText s) \/
    (exists s, ph1 ta tb [] [] (x, y) = [SetText x y s] /\ ~ elemk (tkind ta x) /\
       t_kind tb y = KComment /\ tkind tb y = NComment s) \/
    (elemk (tkind ta x) /\
     ph1 ta tb [] [] (x, y) = [UpdateProperties x y (props_diff (t_props ta x) (t_props tb y))]).
  Proof.
    intros Sx Sy Ek. unfold shaped in Sx, Sy. unfold tkind. rewrite Ek in *.
    unfold phase1. cbn [mem existsb orb].
    destruct (t_kind tb y) as [tag ns| |].
    - destruct Sx as [Tx Nx], Sy as [Ty Ny]. rewrite Tx, Ty. cbn [otext_eqb].
      destruct (props_empty (t_props ta x) && props_empty (t_props tb y)) eqn:Ee.
      { left. split; [done|]. apply andb_true_iff in Ee as [E1 E2].
        by destruct (t_props ta x), (t_props tb y). }
      destruct (any_different (props_diff (t_props ta x) (t_props tb y))
        || Nat.ltb (length (props_diff (t_props ta x) (t_props tb y))) (length (t_props ta x))) eqn:Ed.
      { right. right. right. done. }
      left. split; [done|]. apply orb_false_iff in Ed as [E1 E2]. apply Nat.ltb_ge in E2.
      by rewrite (no_update_equal (t_props ta x) (t_props tb y)).
    - destruct Sx as [Px [sx Tx]], Sy as [Py [sy Ty]]. rewrite Tx, Ty, Px, Py. cbn [otext_eqb props_empty andb app otext].
      destruct (String.eqb_spec sx sy) as [->|Hne]; [by left|].
      right. left. exists sy. split; [done|]. split; [by intros []|]. done.
    - destruct Sx as [Px [sx Tx]], Sy as [Py [sy Ty]]. rewrite Tx, Ty, Px, Py. cbn [otext_eqb props_empty andb app otext].
      destruct (String.eqb_spec sx sy) as [->|Hne]; [by left|].
      right. right. left. exists sy. split; [done|]. split; [by intros []|]. done.
  Qed.

  Lemma attrs_run ins bd lb f dom : forall rest cs st st0 kd,
    shw st st0 ->
    sim (cs_shadow cs) st0 f dom kd bd lb ->
    NoDup (map fst rest) ->
    (forall x y, (x, y) ∈ rest -> dom x /\ (exists q, spath (cs_shadow cs) x q) /\
       shaped ta x /\ shaped tb y /\ t_kind ta x = t_kind tb y /\ (x <> 0 -> kd x = vkind va (tkind ta x)) /\
       (x = 0 -> elemk (tkind ta x) /\ opq (va (t_props tb y)) = false /\ t_props ta x = []) /\
       (elemk (tkind ta x) -> (exists tg, okn tg (t_props ta x)) /\ (exists tg, okn tg (t_props tb y)) /\
          (x <> 0 -> opq (va (t_props ta x)) = opq (va (t_props tb y))))) ->
    contk (kd 0) ->
    exists cs' st' st1 kd', runs tb ap ins cs st (flat_map (ph1 ta tb [] []) rest) cs' st' /\
      cs_shadow cs' = cs_shadow cs /\ cs_b2s cs' = cs_b2s cs /\ shw st' st1 /\
      length (fst st1) = length (fst st0) /\ sim (cs_shadow cs) st1 f dom kd' bd lb /\ contk (kd' 0) /\
      (forall x y, (x, y) ∈ rest -> x <> 0 -> kd' x = vkind va (tkind tb y)) /\
      (forall x, x ∉ map fst rest -> kd' x = kd x).
  Proof.
    induction rest as [|[x y] rest IH]; intros cs st st0 kd SH SM Hnd Hr H0.
    { exists cs, st, st0, kd. split; [apply runs_nil|]. do 6 (split; [done|]). split; [|done].
      intros x y Hin. by apply elem_of_nil in Hin. }
    cbn [map fst] in Hnd. apply NoDup_cons in Hnd as [Hnx Hnd].
    destruct (Hr x y (elem_of_list_here _ _)) as (Hdx & [q Hq] & Sx & Sy & Ek & Hkx & Hx0 & Hok).
    assert (forall k cs1 st1 st2 p,
      convert_op tb ins cs p = Val cs1 -> cs_shadow cs1 = cs_shadow cs -> cs_b2s cs1 = cs_b2s cs ->
      forall pt, cs_out cs1 = cs_out cs ++ [pt] -> ap st pt = (st1, Val tt) ->
      hits_body pt = false -> shw st1 st2 -> length (fst st2) = length (fst st0) ->
      sim (cs_shadow cs) st2 f dom (fun z => if Nat.eqb z x then k else kd z) bd lb ->
      (x <> 0 -> k = vkind va (tkind tb y)) -> (x = 0 -> contk k) ->
      ph1 ta tb [] [] (x, y) = [p] ->
      exists cs' st' st3 kd', runs tb ap ins cs st (flat_map (ph1 ta tb [] []) ((x, y) :: rest)) cs' st' /\
      cs_shadow cs' = cs_shadow cs /\ cs_b2s cs' = cs_b2s cs /\ shw st' st3 /\
      length (fst st3) = length (fst st0) /\ sim (cs_shadow cs) st3 f dom kd' bd lb /\ contk (kd' 0) /\
      (forall x' y', (x', y') ∈ (x, y) :: rest -> x' <> 0 -> kd' x' = vkind va (tkind tb y')) /\
      (forall x', x' ∉ map fst ((x, y) :: rest) -> kd' x' = kd x')) as Hstep.
    { intros k cs1 st1 st2 p Ec Es Eb pt Eo Ea Hh SH1 Hle SM1 Hk Hk0 Ep.
      destruct (IH cs1 st1 st2 (fun z => if Nat.eqb z x then k else kd z))
        as (cs' & st' & st3 & kd' & R & Es' & Eb' & SH' & Hle' & SM' & H0' & Hp & Ho).
      - done.
      - by rewrite Es.
      - done.
      - intros x' y' Hin. destruct (Hr x' y') as (G1 & G2 & G3 & G4 & G5 & G6 & G7 & G8); [by right|].
        rewrite Es. do 5 (split; [done|]). split; [|done]. intros Hx'.
        destruct (Nat.eqb_spec x' x) as [->|]; [|by apply G6].
        exfalso. apply Hnx. apply elem_of_list_fmap. by exists (x, y').
      - destruct (Nat.eqb_spec 0 x); [by apply Hk0|done].
      - exists cs', st', st3, kd'.
        split; [|split; [congruence|split; [congruence|split; [done|split; [congruence|split; [by rewrite <- Es|split; [done|split]]]]]]].
        + cbn [flat_map]. rewrite Ep. by eapply runs_cons.
        + intros x' y' Hin Hx'. apply elem_of_cons in Hin as [[= -> ->]|Hin]; [|by apply Hp].
          rewrite Ho by done. rewrite Nat.eqb_refl. by apply Hk.
        + intros x' Hx'. cbn [map fst] in Hx'. apply not_elem_of_cons in Hx' as [Hne Hx'].
          rewrite Ho by done. by destruct (Nat.eqb_spec x' x). }
    destruct st0 as [a sl].
    pose proof (sm_wf _ _ _ _ _ _ _ SM) as Wd. cbn [fst] in Wd.
    pose proof (sm_kind _ _ _ _ _ _ _ SM x Hdx) as Hnk. cbn [fst] in Hnk.
    pose proof (sim_navigate _ _ _ _ _ _ _ _ SM x q Hq Hdx) as Hnav.
    pose proof (spath_compute _ x q (sm_sh _ _ _ _ _ _ _ SM) Hq) as Hcp.
    destruct (phase1_cases x y Sx Sy Ek) as [[Ep Et]|[(sx & Ep & Hne & Hk & Et)|[(sx & Ep & Hne & Hk & Et)|[He Ep]]]].
    - destruct (IH cs st (a, sl) kd SH SM Hnd) as (cs' & st' & st3 & kd' & R & Es & Eb & SH' & Hle & SM' & H0' & Hp & Ho).
      { intros x' y' Hin. apply Hr. by right. }
      { done. }
      exists cs', st', st3, kd'. cbn [flat_map]. rewrite Ep. do 7 (split; [done|]). split.
      + intros x' y' Hin Hx'. apply elem_of_cons in Hin as [[= -> ->]|Hin]; [|by apply Hp].
        rewrite Ho by done. rewrite Hkx, Et by done. done.
      + intros x' Hx'. cbn [map fst] in Hx'. apply not_elem_of_cons in Hx' as [_ Hx']. by apply Ho.
    - assert (x <> 0) as Hxn. { intros ->. by apply Hne, Hx0. }
      assert (exists s', node_kind a (f x) = Some (NText s')) as [s' Hs'].
      { rewrite Hnk, Hkx by done. unfold tkind. rewrite Ek. unfold tkind in Et.
        destruct (t_kind tb y); [done|eexists; done|done]. }
      destruct (ap_text _ _ _ _ AO st a sl q (f x) sx s' SH Wd Hnav Hs') as (st1 & Eap & SH1).
      eapply (Hstep (NText sx) (emit cs (cs_shadow cs) (PSetText q sx)) st1 _ _);
        [| | |reflexivity|exact Eap|done|exact SH1|cbn [fst]; apply length_set_kind| | | |exact Ep].
      + unfold convert_op. by rewrite Hcp.
      + done.
      + done.
      + apply (sim_kind _ _ _ _ _ _ _ _ SM x); [done|]. rewrite Hkx by done.
        intros Hc. apply contk_elem, elemk_vkind in Hc. done.
      + by rewrite Et.
      + done.
    - assert (x <> 0) as Hxn. { intros ->. by apply Hne, Hx0. }
      assert (exists s', node_kind a (f x) = Some (NComment s')) as [s' Hs'].
      { rewrite Hnk, Hkx by done. unfold tkind. rewrite Ek, Hk. eexists. done. }
      destruct (ap_comment _ _ _ _ AO st a sl q (f x) sx s' SH Wd Hnav Hs') as (st1 & Eap & SH1).
      eapply (Hstep (NComment sx) (emit cs (cs_shadow cs) (PSetText q sx)) st1 _ _);
        [| | |reflexivity|exact Eap|done|exact SH1|cbn [fst]; apply length_set_kind| | | |exact Ep].
      + unfold convert_op. by rewrite Hcp.
      + done.
      + done.
      + apply (sim_kind _ _ _ _ _ _ _ _ SM x); [done|]. rewrite Hkx by done.
        intros Hc. apply contk_elem, elemk_vkind in Hc. done.
      + by rewrite Et.
      + done.
    - set (ch := props_diff (t_props ta x) (t_props tb y)) in *.
      assert (exists tag l, kd x = NElem tag l) as (tag & l & Hkd).
      { destruct (decide (x = 0)) as [->|Hx]; [|rewrite Hkx in * by done].
        - destruct (kd 0); try done. eauto.
        - destruct (tkind ta x); try done. cbn. eauto. }
      destruct (Hok He) as (Ok1 & Ok2 & Hop).
      assert (exists g1 g2, t_kind ta x = KElem g1 g2) as (g1 & g2 & Eg).
      { unfold tkind in He. destruct (t_kind ta x); try done. eauto. }
      unfold shaped in Sx, Sy. rewrite <- Ek, Eg in Sy. rewrite Eg in Sx.
      assert (x <> 0 -> l = va (t_props ta x)) as Hl.
      { intros Hx. rewrite (Hkx Hx) in Hkd. unfold tkind in Hkd. rewrite Eg in Hkd.
        cbn [vkind] in Hkd. by injection Hkd as _ <-. }
      destruct (ap_update _ _ _ _ AO st a sl q (f x) tag l (t_props ta x) (t_props tb y)
                  SH Wd Hnav) as (st1 & L & Eap & SH1 & HL & HoL & _).
      { by rewrite Hnk, Hkd. } { done. } { done. } { apply Sx. } { apply Sy. }
      { destruct (decide (x = 0)) as [->|Hx]; [|by rewrite Hl, Hop].
        destruct (Hx0 eq_refl) as (_ & -> & _). rewrite Hkd in H0. exact H0. }
      { destruct (decide (x = 0)) as [->|Hx]; [right|left; by apply Hl]. rewrite Hkd in H0. exact H0. }
      { intros _. destruct (decide (x = 0)) as [->|Hx]; [right|left; by apply Hl].
        split; [by apply Hx0|]. destruct (sm_root _ _ _ _ _ _ _ SM) as (_ & _ & s0 & Hs0 & Hc0).
        pose proof (sm_sh _ _ _ _ _ _ _ SM) as SW.
        assert (spath (cs_shadow cs) 0 [0]) as Hq0.
        { apply (spath_root _ 0 s0 0); [|done]. apply (wf_pc _ (sw_wf _ SW)). rewrite Hc0. by left. }
        pose proof (spath_compute _ _ _ SW Hq0). congruence. }
      eapply (Hstep (NElem tag L) (emit cs (cs_shadow cs) (PUpdateProps q ch)) st1 _ _);
        [| | |reflexivity|exact Eap|done|exact SH1|cbn [fst]; apply length_set_kind| | | |exact Ep].
      + unfold convert_op. by rewrite Hcp.
      + done.
      + done.
      + apply (sim_kind _ _ _ _ _ _ _ _ SM x); [done|]. rewrite Hkd. cbn [contk]. by rewrite HoL.
      + intros Hx. rewrite HL by (by apply Hl). rewrite (Hkx Hx) in Hkd. unfold tkind in *. rewrite <- Ek, Eg in *.
        cbn [vkind] in *. injection Hkd as <- _. done.
      + intros ->. rewrite Hkd in H0. cbn [contk] in *. by rewrite HoL.
  Qed.
End Attrs.

(** ** The initial shadow tree *)

Record fresh_shadow (t : arena tdata) (s : shadow) : Prop := {
  fs_wf : shwf s;
  fs_super : sh_super s = length t;
  fs_len : length (sh_arena s) = S (S (length t));
  fs_top : children (sh_arena s) (length t) = [S (length t)];
  fs_slot : children (sh_arena s) (S (length t)) = [0];
  fs_children : forall j, j < length t -> children (sh_arena s) j = children t j;
  fs_root_parent : parent (sh_arena s) 0 = Some (S (length t));
  fs_slot_parent : parent (sh_arena s) (S (length t)) = Some (length t);
  fs_parent : forall j, j < length t -> j <> 0 -> parent (sh_arena s) j = parent t j
}.

Lemma shadow_new_full t :
  wf t -> 0 < length t -> parent t 0 = None ->
  exists s, shadow_new t 0 = Val s /\ fresh_shadow t s.
Proof.
  intros W L0 P0. unfold shadow_new.
  destruct (new_node_full t marker W) as (W1 & L1 & P1 & C1 & D1 & Cj1 & Pj1 & Dj1).
  change (new_node t marker) with (fst (new_node t marker), length t). cbv beta iota.
  set (a1 := fst (new_node t marker)) in *.
  destruct (new_node_full a1 marker W1) as (W2 & L2 & P2 & C2 & D2 & Cj2 & Pj2 & Dj2).
  change (new_node a1 marker) with (fst (new_node a1 marker), length a1). cbv beta iota.
  set (a2 := fst (new_node a1 marker)) in *. rewrite L1 in *.
  destruct (append_full a2 (length t) (S (length t))) as (a3 & E3 & [W3 L3 D3 C3 P3]); [done|lia|lia|done| |].
  { apply leaf_not_above; [done|done|lia]. }
  rewrite E3. cbn [obind].
  assert (parent a3 0 = None) as P30.
  { rewrite P3. destruct (Nat.eqb_spec 0 (S (length t))); [lia|]. by rewrite Pj2, Pj1. }
  rewrite (detach_orphan a3 0 P30).
  destruct (append_full a3 (S (length t)) 0) as (a4 & E4 & [W4 L4 D4 C4 P4]); [done|lia|lia|done| |].
  { intros Ha. apply above_inv in Ha as [?|(q & Hq & Ha)]; [lia|].
    rewrite P3, Nat.eqb_refl in Hq. injection Hq as <-.
    apply above_inv in Ha as [?|(q & Hq & _)]; [lia|].
    rewrite P3 in Hq. destruct (Nat.eqb_spec (length t) (S (length t))); [lia|].
    rewrite Pj2, P1 in Hq. done. }
  rewrite E4. cbn [obind]. eexists. split; [reflexivity|].
  assert (children a4 (length t) = [S (length t)]) as Htop.
  { rewrite C4. destruct (Nat.eqb_spec (length t) (S (length t))); [lia|].
    rewrite C3, Nat.eqb_refl, Cj2, C1. done. }
  split; cbn [sh_arena sh_super sh_next].
  - split; cbn [sh_arena sh_super sh_next]; [done|lia| |by rewrite Htop].
    rewrite P4. destruct (Nat.eqb_spec (length t) 0); [lia|].
    rewrite P3. destruct (Nat.eqb_spec (length t) (S (length t))); [lia|]. by rewrite Pj2, P1.
  - done.
  - lia.
  - done.
  - rewrite C4, Nat.eqb_refl, C3. destruct (Nat.eqb_spec (S (length t)) (length t)); [lia|].
    rewrite Cj2, Cj1, (children_ge t (S (length t))); [done|lia].
  - intros j Hj. rewrite C4. destruct (Nat.eqb_spec j (S (length t))); [lia|].
    rewrite C3. destruct (Nat.eqb_spec j (length t)); [lia|]. by rewrite Cj2, Cj1.
  - by rewrite P4.
  - rewrite P4. destruct (Nat.eqb_spec (S (length t)) 0); [lia|]. by rewrite P3, Nat.eqb_refl.
  - intros j Hj Hj0. rewrite P4. destruct (Nat.eqb_spec j 0); [lia|].
    rewrite P3. destruct (Nat.eqb_spec j (S (length t))); [lia|]. by rewrite Pj2, Pj1.
Qed.

(** A DOM that holds trees shows them. *)
Lemma holds_shows a t : forall i, holds a t i -> shows a t i.
Proof.
  induction t as [s|s|tag ns ats cs IH] using htree_ind'; intros i Hh; [exact Hh|exact Hh|].
  - apply holds_elem in Hh as [Hd Hh]. apply shows_elem. split; [unfold node_kind; by rewrite Hd|].
    exists (children a i), []. rewrite app_nil_r. split; [done|]. split; [intros e He; by apply elem_of_nil in He|].
    clear Hd. revert IH. induction Hh as [|c j cs l Hc _ IHl]; intros IH; [constructor|].
    constructor; [apply IH; [left|done]|]. apply IHl. intros t Ht. apply IH. by right.
Qed.

Lemma holds_shows_list a ts l : holds_list a ts l -> shows_list a ts l.
Proof.
  intros Hh. exists l, []. rewrite app_nil_r. split; [done|]. split; [intros e He; by apply elem_of_nil in He|].
  eapply Forall2_impl; [exact Hh|]. intros t j. apply holds_shows.
Qed.

Lemma shows_children va a h i : shows_v va a h i -> shows_list_v va a (hchildren h) (children a i).
Proof.
  destruct h as [tag ns ats cs|s|s]; intros Hh.
  - by apply shows_elem in Hh as [_ ?].
  - destruct Hh as [_ ->]. exists [], []. split; [done|]. split; [intros e He; by apply elem_of_nil in He|constructor].
  - destruct Hh as [_ ->]. exists [], []. split; [done|]. split; [intros e He; by apply elem_of_nil in He|constructor].
Qed.

Section Start.
  Context {OQ : opaques}.
  Variables (t : arena tdata) (k : hkind) (ts : list htree) (s : shadow).
  Variables (va : attrs -> attrs) (D : arena dnode) (bd : nat) (lb : list nat).
  Hypothesis BT : built t k ts.
  Hypothesis FS : fresh_shadow t s.
  Hypothesis WD : wf D.
  Hypothesis HB : shows_list_v va D ts (children D bd).
  Hypothesis BL : bd < length D.
  Hypothesis BC : chain D bd lb.

  Lemma start_0 : 0 < length t.
  Proof. eapply data_lt. apply BT. Qed.

  Lemma start_parent x : x < length t -> x <> 0 -> exists p i, parent t x = Some p /\ p < length t /\
    children t p !! i = Some x.
  Proof.
    intros Hx H0. pose proof (bt_wf _ _ _ BT) as W.
    destruct (above_inv _ _ _ (bt_all _ _ _ BT x Hx)) as [?|(p & Hp & _)]; [lia|].
    pose proof (proj1 (wf_pc _ W _ _) Hp) as Hin. pose proof (wf_parent_lt _ _ _ W Hp).
    apply elem_of_list_lookup in Hin as [i Hi]. eauto.
  Qed.

  Lemma start_path_step x p q i : x < length t -> x <> 0 -> parent t x = Some p -> p < length t ->
    children t p !! i = Some x -> spath s p q -> spath s x (q ++ [i]).
  Proof.
    intros Hx H0 Hp Hpl Hi Hq.
    assert (parent (sh_arena s) p <> Some (sh_super s)) as Hps.
    { rewrite (fs_super _ _ FS). destruct (decide (p = 0)) as [->|Hp0].
      - rewrite (fs_root_parent _ _ FS). intros [= ?]. lia.
      - rewrite (fs_parent _ _ FS) by done. intros HH. apply (wf_parent_lt _ _ _ (bt_wf _ _ _ BT)) in HH. lia. }
    apply spath_step with p; [by rewrite (fs_parent _ _ FS)|done| |done].
    by rewrite (fs_children _ _ FS).
  Qed.

  Lemma start_root_path : spath s 0 [0].
  Proof.
    apply (spath_root s 0 (S (length t)) 0); [by apply fs_root_parent|].
    by rewrite (fs_super _ _ FS), (fs_top _ _ FS).
  Qed.

  (** Induction over the nodes of [t], parents first. *)
  Lemma start_ind (P : nat -> Prop) : P 0 ->
    (forall x p i, x < length t -> x <> 0 -> parent t x = Some p -> p < length t ->
       children t p !! i = Some x -> P p -> P x) ->
    forall x, x < length t -> P x.
  Proof.
    intros H0 Hs x Hx. destruct (wf_chain _ (bt_wf _ _ _ BT) x) as [l Hc].
    revert Hx. induction Hc as [x Hn|x p l Hp Hc IH]; intros Hx.
    - destruct (decide (x = 0)) as [->|Hne]; [done|].
      destruct (start_parent x Hx Hne) as (p & _ & HH & _). congruence.
    - destruct (decide (x = 0)) as [->|Hne]; [done|].
      destruct (start_parent x Hx Hne) as (p' & i & HH & Hpl & Hi). assert (p' = p) as -> by congruence.
      eapply Hs; eauto.
  Qed.

  Lemma start_path x : x < length t -> exists q, spath s x q.
  Proof.
    revert x. apply start_ind; [eexists; apply start_root_path|].
    intros x p i Hx H0 Hp Hpl Hi [q Hq]. exists (q ++ [i]). by eapply start_path_step.
  Qed.

  (** The DOM node that stands for an old node. *)
  Definition start_f (x : nat) : nat :=
    match compute_path s x with
    | Val q => match navigate_slot_path D [(0, bd)] q with Val j => j | _ => 0 end
    | _ => 0
    end.

  Lemma start_f_root : start_f 0 = bd.
  Proof. unfold start_f. by rewrite (spath_compute _ _ _ (fs_wf _ _ FS) start_root_path). Qed.

  (** A node and its DOM node hold the same tree. *)
  Lemma start_corr x : x < length t ->
    (exists q, spath s x q /\ navigate_slot_path D [(0, bd)] q = Val (start_f x)) /\
    exists hs, tholds_list t hs (children t x) /\ shows_list_v va D hs (children D (start_f x)) /\
      (x <> 0 -> exists h, hchildren h = hs /\ tholds t h x /\ shows_v va D h (start_f x)).
  Proof.
    revert x. apply start_ind.
    - split.
      + exists [0]. split; [apply start_root_path|]. rewrite start_f_root. done.
      + exists ts. rewrite start_f_root. split; [apply BT|]. done.
    - intros x p i Hx H0 Hp Hpl Hi [(q & Hq & Hn) (hs & Ht & (l1 & E & El & HE & Hd) & _)].
      pose proof (start_path_step x p q i Hx H0 Hp Hpl Hi Hq) as Hq'.
      destruct (Forall2_lookup_r _ _ _ i x Ht Hi) as (h & Hh & Htx).
      destruct (Forall2_lookup_l _ _ _ i h Hd Hh) as (j & Hj & Hdx).
      assert (navigate_slot_path D [(0, bd)] (q ++ [i]) = Val j) as Hn'.
      { rewrite (navigate_slot_app _ _ _ _ _ Hn). simpl. by rewrite El, lookup_app_l, Hj by (by eapply lookup_lt_Some). }
      assert (start_f x = j) as Ef.
      { unfold start_f. by rewrite (spath_compute _ _ _ (fs_wf _ _ FS) Hq'), Hn'. }
      rewrite Ef. split; [by exists (q ++ [i])|].
      exists (hchildren h). split; [by apply tholds_eq in Htx as [_ ?]|].
      split; [by apply shows_children|]. intros _. by exists h.
  Qed.

  Lemma start_child x i c : x < length t -> children t x !! i = Some c ->
    c < length t /\ c <> 0 /\ children D (start_f x) !! i = Some (start_f c).
  Proof.
    intros Hx Hi. pose proof (elem_of_list_lookup_2 _ _ _ Hi) as Hin.
    pose proof (wf_child_lt _ _ _ (bt_wf _ _ _ BT) Hin) as Hc.
    apply (wf_pc _ (bt_wf _ _ _ BT)) in Hin as Hp.
    assert (c <> 0) as H0. { intros ->. rewrite (bt_root_parent _ _ _ BT) in Hp. done. }
    split; [done|]. split; [done|].
    destruct (start_corr x Hx) as [(q & Hq & Hn) (hs & Ht & (l1 & E & El & HE & Hd) & _)].
    pose proof (start_path_step c x q i Hc H0 Hp Hx Hi Hq) as Hq'.
    destruct (Forall2_lookup_r _ _ _ i c Ht Hi) as (h & Hh & _).
    destruct (Forall2_lookup_l _ _ _ i h Hd Hh) as (j & Hj & _).
    assert (children D (start_f x) !! i = Some j) as Hj'.
    { rewrite El, lookup_app_l; [done|]. by eapply lookup_lt_Some. }
    assert (navigate_slot_path D [(0, bd)] (q ++ [i]) = Val j) as Hn'.
    { rewrite (navigate_slot_app _ _ _ _ _ Hn). simpl. by rewrite Hj'. }
    unfold start_f at 2. by rewrite (spath_compute _ _ _ (fs_wf _ _ FS) Hq'), Hn'.
  Qed.

  Lemma start_walk q : forall x z, x < length t -> node_at t x q = Some z ->
    z < length t /\ node_at D (start_f x) q = Some (start_f z).
  Proof.
    induction q as [|i q IH]; intros x z Hx; cbn [node_at]; [by intros [= ->]|].
    destruct (children t x !! i) as [c|] eqn:Ec; [|done]. intros Hz.
    destruct (start_child x i c Hx Ec) as (Hc & _ & ->). by apply IH.
  Qed.

  Lemma start_children x : x < length t -> exists E,
    children D (start_f x) = map start_f (children t x) ++ E /\ forall e, e ∈ E -> empty_leaf D e.
  Proof.
    intros Hx. destruct (start_corr x Hx) as [_ (hs & Ht & (l1 & E & El & HE & Hd) & _)].
    exists E. split; [|done]. rewrite El. f_equal.
    apply Forall2_length in Ht. apply Forall2_length in Hd.
    apply list_eq. intros i. change (map start_f) with (fmap (M := list) start_f). rewrite list_lookup_fmap.
    destruct (children t x !! i) as [c|] eqn:Hc; cbn [fmap option_fmap option_map].
    - destruct (start_child x i c Hx Hc) as (_ & _ & Hl). rewrite El, lookup_app_l in Hl; [done|].
      apply lookup_lt_Some in Hc. lia.
    - apply lookup_ge_None in Hc. apply lookup_ge_None. lia.
  Qed.

  (** No trailing empty texts if the DOM holds the trees themselves. *)
  Lemma start_children_exact x : holds_list D ts (children D bd) -> x < length t ->
    children D (start_f x) = map start_f (children t x).
  Proof.
    intros HX Hx. assert (exists hs, tholds_list t hs (children t x) /\ holds_list D hs (children D (start_f x)))
      as (hs & Ht & Hd).
    { revert x Hx. apply start_ind.
      - exists ts. rewrite start_f_root. split; [apply BT|done].
      - intros x p i Hx H0 Hp Hpl Hi (hs & Ht & Hd).
        destruct (start_child p i x Hpl Hi) as (_ & _ & Hc).
        destruct (Forall2_lookup_r _ _ _ i x Ht Hi) as (h & Hh & Htx).
        destruct (Forall2_lookup_l _ _ _ i h Hd Hh) as (j & Hj & Hdx).
        rewrite Hc in Hj. injection Hj as <-.
        exists (hchildren h). split; [by apply tholds_eq in Htx as [_ ?]|by apply holds_children]. }
    destruct (start_children x Hx) as (E & El & _). rewrite El.
    apply Forall2_length in Ht. apply Forall2_length in Hd. rewrite El, app_length, map_length in Hd.
    destruct E; [by rewrite app_nil_r|]. cbn in Hd. lia.
  Qed.

  Lemma start_parent_f x p : x < length t -> parent t x = Some p -> p < length t ->
    parent D (start_f x) = Some (start_f p).
  Proof.
    intros Hx Hp Hpl. apply (wf_pc _ WD). destruct (start_children p Hpl) as (E & -> & _).
    apply elem_of_app. left.
    apply elem_of_list_fmap. exists x. split; [done|]. by apply (wf_pc _ (bt_wf _ _ _ BT)).
  Qed.

  Lemma start_above x : x < length t -> above D bd (start_f x) /\ start_f x < length D.
  Proof.
    revert x. apply start_ind.
    - rewrite start_f_root. split; [by apply above_refl|done].
    - intros x p i Hx H0 Hp Hpl Hi [IH _]. pose proof (start_parent_f x p Hx Hp Hpl) as Hpp.
      split; [by eapply above_parent|by eapply parent_lt].
  Qed.

  Lemma start_not_body x : x < length t -> x <> 0 -> start_f x <> bd.
  Proof.
    intros Hx H0 E. destruct (start_parent x Hx H0) as (p & i & Hp & Hpl & Hi).
    pose proof (start_parent_f x p Hx Hp Hpl) as Hpp. rewrite E in Hpp.
    apply (above_not_parent _ _ _ WD Hpp). by apply start_above.
  Qed.

  Lemma start_inj x : x < length t -> forall y, y < length t -> start_f x = start_f y -> x = y.
  Proof.
    revert x. apply (start_ind (fun x => forall y, y < length t -> start_f x = start_f y -> x = y)).
    - intros y Hy E. destruct (decide (y = 0)) as [->|H0]; [done|]. exfalso.
      apply (start_not_body y Hy H0). by rewrite <- E, start_f_root.
    - intros x p i Hx H0 Hp Hpl Hi IH y Hy E.
      destruct (decide (y = 0)) as [->|Hy0].
      { exfalso. apply (start_not_body x Hx H0). by rewrite E, start_f_root. }
      destruct (start_parent y Hy Hy0) as (p' & i' & Hp' & Hpl' & Hi').
      pose proof (start_parent_f x p Hx Hp Hpl) as G1. pose proof (start_parent_f y p' Hy Hp' Hpl') as G2.
      rewrite E, G2 in G1. injection G1 as G1. symmetry in G1. apply IH in G1; [|done]. subst p'.
      destruct (start_child p i x Hpl Hi) as (_ & _ & F1). destruct (start_child p i' y Hpl Hi') as (_ & _ & F2).
      rewrite E in F1. assert (i = i') as -> by (eapply NoDup_lookup; [apply (wf_nd _ WD)|done|done]). congruence.
  Qed.

  Definition start_kd (x : nat) : nkind :=
    match node_kind D (start_f x) with Some k => k | None => NDocument end.

  Lemma start_kd_h x h : shows_v va D h (start_f x) -> start_kd x =
    vkind va match h with HElem tag _ ats _ => NElem tag ats | HText s => NText s | HComment s => NComment s end.
  Proof.
    intros Hh. unfold start_kd. destruct h as [tag ns ats cs|sx|sx].
    - apply shows_elem in Hh as [-> _]. done.
    - destruct Hh as [-> _]. done.
    - destruct Hh as [-> _]. done.
  Qed.

  Hypothesis BE : is_cont D bd.
  Hypothesis CUT : forall i tag l, node_kind D i = Some (NElem tag l) -> opq l = true -> children D i = [].

  Hypothesis TI : tight = true -> holds_list D ts (children D bd).

  Lemma start_sim :
    sim s (D, [(0, bd)]) start_f (fun x => x < length t) start_kd bd lb.
  Proof.
    pose proof start_0 as L0. pose proof (bt_wf _ _ _ BT) as W.
    split; cbn [fst snd].
    - apply FS.
    - done.
    - intros x Hx. rewrite (fs_len _ _ FS). split; [lia|by apply start_above].
    - intros x y Hx Hy. by apply start_inj.
    - intros x Hx. rewrite (fs_super _ _ FS). split; [lia|].
      destruct (decide (x = 0)) as [->|H0]; [rewrite (fs_root_parent _ _ FS); intros [= ?]; lia|].
      rewrite (fs_parent _ _ FS) by done. intros HH. apply (wf_parent_lt _ _ _ W) in HH. lia.
    - intros x c Hx Hc. rewrite (fs_children _ _ FS) in Hc by done. by eapply wf_child_lt.
    - intros x p Hx Hp Hps. rewrite (fs_super _ _ FS).
      destruct (decide (x = 0)) as [->|H0].
      + rewrite (fs_root_parent _ _ FS) in Hp. injection Hp as <-. left. by apply fs_slot_parent.
      + rewrite (fs_parent _ _ FS) in Hp by done. right. by eapply wf_parent_lt.
    - intros x Hx. rewrite (fs_children _ _ FS) by done.
      destruct (start_children x Hx) as (E & El & HE). exists E. split; [done|].
      intros e He. split; [by apply HE|]. intros y Hy Ey.
      assert (parent D (start_f y) = Some (start_f x)) as Hpy.
      { apply (wf_pc _ WD). rewrite El, Ey. apply elem_of_app. by right. }
      destruct (decide (y = 0)) as [->|H0].
      { rewrite start_f_root in Hpy. apply (above_not_parent _ _ _ WD Hpy). by apply start_above. }
      destruct (start_parent y Hy H0) as (p & i & Hp & Hpl & Hi).
      pose proof (start_parent_f y p Hy Hp Hpl) as G. rewrite Hpy in G. injection G as G.
      symmetry in G. apply start_inj in G; [|done|done]. subst p.
      pose proof (wf_nd _ WD (start_f x)) as ND. rewrite El in ND. apply NoDup_app in ND as (_ & ND & _).
      apply (ND e); [|done]. apply elem_of_list_fmap. exists y. split; [done|]. by eapply elem_of_list_lookup_2.
    - intros k0 sl c Hk Hc Hd. rewrite (fs_super _ _ FS), (fs_top _ _ FS) in Hk.
      destruct k0 as [|k0]; [|by destruct k0]. injection Hk as <-.
      rewrite (fs_slot _ _ FS) in Hc. apply elem_of_list_singleton in Hc as ->.
      rewrite start_f_root. split; [done|]. by intros [].
    - split; [done|]. split; [apply start_f_root|]. exists (S (length t)).
      rewrite (fs_super _ _ FS), (fs_top _ _ FS). split; [done|]. by apply fs_slot.
    - done.
    - intros x Hx Hin. destruct (start_above x Hx) as [Ha _].
      assert (above D (start_f x) bd) as Hb by (exists lb; auto).
      pose proof (above_antisym _ _ _ WD Ha Hb) as E. rewrite <- E in Hin.
      by apply (chain_not_self _ _ _ BC).
    - intros x Hx. unfold start_kd. destruct (start_above x Hx) as [_ Hl].
      unfold node_kind. destruct (data_some _ _ Hl) as [d ->]. done.
    - intros x Hx Hne. destruct (decide (x = 0)) as [->|H0].
      { exfalso. apply Hne. unfold start_kd. rewrite start_f_root. by destruct BE as (k0 & -> & ?). }
      destruct (start_corr x Hx) as [_ (hs & _ & _ & Hh)]. destruct (Hh H0) as (h & _ & _ & Hd).
      rewrite (start_kd_h x h Hd) in Hne. destruct h as [tag ns ats cs|sx|sx].
      + apply shows_elem in Hd as [Hk _]. apply (CUT _ _ _ Hk).
        destruct (opq (va ats)) eqn:Eo; [done|]. by destruct Hne.
      + by destruct Hd.
      + by destruct Hd.
    - intros Ht x Hx. rewrite (start_children_exact x (TI Ht) Hx), map_length.
      by rewrite (fs_children _ _ FS).
  Qed.

  Lemma start_kd_root : contk (start_kd 0).
  Proof. unfold start_kd. rewrite start_f_root. by destruct BE as (k0 & -> & ?). Qed.
End Start.
