(** The browser's way to apply patches (Browser.v) meets the requirements of
    Applier.v. *)
From stdpp Require Import list_numbers.
From Verif Require Import Base Arena Matching Chawathe Dom HtmlDiff Browser
  AttrProofs ArenaProofs ArenaOps TreeProofs DomTree ApplyProofs ShadowProofs SimProofs Applier.
Local Open Scope string_scope.

(** ** Attributes *)

Global Instance flat_inj : Inj (=) (=) flat.
Proof. by intros n n' [=]. Qed.

Lemma flat_eqb n n' : qname_eqb (flat n) (flat n') = String.eqb n n'.
Proof. unfold qname_eqb, flat. simpl. done. Qed.

(** Flat attributes only. *)
Definition all_flat (l : attrs) : Prop := forall k v, (k, v) ∈ l -> k = flat (q_local k).

Lemma all_flat_battrs l : all_flat (battrs l).
Proof. intros k v Hin. apply elem_of_list_fmap in Hin as ([q w] & [= -> ->] & _). done. Qed.

Lemma attr_set_fresh q v l : q ∉ keys l -> attr_set q v l = (l ++ [(q, v)])%list.
Proof.
  induction l as [|[k w] l IH]; intros Hn; [done|]. cbn [keys map fst] in Hn.
  apply not_elem_of_cons in Hn as [Hk Hn]. cbn [attr_set].
  destruct (qname_eqb k q) eqn:E; [by apply qname_eqb_eq in E|]. by rewrite IH.
Qed.

Lemma keys_battrs l : keys (battrs l) = map flat (map (fun kv => bname (fst kv)) l).
Proof. unfold keys, battrs. rewrite !map_map. done. Qed.

Lemma attr_drop_head q v l : attr_drop q ((q, v) :: l) = l.
Proof. cbn [attr_drop]. by rewrite qname_eqb_refl. Qed.

Lemma props_diff_no_text x y :
  find (fun c => match pc_name c with PText => true | PAttr _ => false end) (props_diff x y) = None.
Proof.
  unfold props_diff. generalize (order_differs x y) as od. intros od.
  assert (forall fc, find (fun c => match pc_name c with PText => true | PAttr _ => false end)
    (props_diff_loop x od fc y) = None) as H; [|apply H].
  induction y as [|[q v] y IH]; intros fc; [done|]. cbn [props_diff_loop find pc_name]. apply IH.
Qed.

Section Browser.
  Variables valid_elem valid_attr : string -> bool.
  Variable parse_template : string -> list htree.

  (** Names the DOM methods take as they are. *)
  Definition ok_attr (q : qname) : Prop :=
    valid_attr (bname q) = true /\ lower (bname q) = bname q /\ q_prefix q <> Some "".
  Definition ok_attrs (l : attrs) : Prop :=
    (forall q, q ∈ keys l -> ok_attr q) /\ NoDup (map bname (keys l)).
  Definition ok_tag (tag : string) : Prop := valid_elem tag = true /\ lower tag = tag.
  Definition b_okn (tag : string) (l : attrs) : Prop := ok_tag tag /\ ok_attrs l.

  Lemma ok_in_case ns q : ok_attr q -> in_case ns (bname q) = bname q.
  Proof. intros (_ & Hl & _). by destruct ns. Qed.

  Lemma bname_up_ok q : ok_attr q -> bname_up q = bname q.
  Proof.
    intros (_ & _ & Hp). unfold bname_up, bname. destruct (q_prefix q) as [p|]; [|done].
    destruct (String.eqb_spec p "") as [->|]; done.
  Qed.

  Lemma b_set_attrs_ok ns new : forall l,
    (forall q, q ∈ keys new -> ok_attr q) ->
    NoDup (keys l ++ map flat (map bname (keys new)))%list ->
    b_set_attrs valid_attr ns l new = Some (l ++ battrs new)%list.
  Proof.
    induction new as [|[q v] new IH]; intros l Hok Hnd; cbn [b_set_attrs].
    - by rewrite app_nil_r.
    - assert (ok_attr q) as Hq by (apply Hok; left). cbn [keys map fst] in Hnd.
      unfold b_set_attr. destruct Hq as (Hv & Hq). rewrite Hv. rewrite (ok_in_case ns q) by done.
      rewrite attr_set_fresh. 2:{ intros Hin. apply NoDup_app in Hnd as (_ & Hd & _). apply (Hd _ Hin). left. }
      rewrite IH; [by rewrite <- app_assoc|intros; apply Hok; by right|].
      unfold keys at 1. rewrite map_app. cbn [map fst]. by rewrite <- app_assoc.
  Qed.

  Lemma b_create_ok tag l : b_okn tag l ->
    b_create_element valid_elem valid_attr tag l = Some (mkD (NElem tag (battrs l)) NsHtml).
  Proof.
    intros ([Hv Hl] & Hok & Hnd). unfold b_create_element. rewrite Hv, Hl.
    rewrite b_set_attrs_ok; [done|done|]. cbn [keys map app]. by apply (NoDup_fmap_2 _ _).
  Qed.

  (** Clearing leaves attributes behind only if their names are not in lower case;
      with names as given, setting the changes never throws. *)
  Lemma b_set_changes_ok ns ex od forced x : forall y l,
    (forall q, q ∈ keys y -> ok_attr q) ->
    exists L, b_set_changes valid_attr ns ex l (props_diff_loop x od forced y) = (L, true).
  Proof.
    intros y. revert forced. induction y as [|[q v] y IH]; intros forced l Hok; cbn [props_diff_loop b_set_changes].
    - by eexists.
    - assert (ok_attr q) as Hq by (apply Hok; left). cbn [pc_name].
      rewrite bname_up_ok by done. unfold b_set_attr. destruct Hq as (Hv & _). rewrite Hv.
      apply IH. intros q' Hq'. apply Hok. by right.
  Qed.

  Lemma keys_attr_set q v l k : k ∈ keys (attr_set q v l) -> k ∈ keys l \/ k = q.
  Proof.
    induction l as [|[k' w] l IH]; cbn [attr_set].
    - intros Hk. apply elem_of_list_singleton in Hk. auto.
    - destruct (qname_eqb k' q); [auto|]. cbn [keys map fst]. intros Hk.
      apply elem_of_cons in Hk as [->|Hk]; [left; left|]. apply IH in Hk as [Hk|Hk]; [left; by right|auto].
  Qed.

  Lemma b_set_changes_keys ns ex od x : forall y, (forall q, q ∈ keys y -> ok_attr q) -> forall forced l L,
    b_set_changes valid_attr ns ex l (props_diff_loop x od forced y) = (L, true) ->
    forall k, k ∈ keys L -> k ∈ keys l \/ k ∈ keys (battrs y).
  Proof.
    induction y as [|[q v] y IH]; intros Hok forced l L E k Hk; cbn [props_diff_loop b_set_changes pc_name] in E.
    - injection E as <-. auto.
    - assert (ok_attr q) as Hq by (apply Hok; left).
      rewrite bname_up_ok in E by done. unfold b_set_attr in E. pose proof Hq as (Hv & _). rewrite Hv in E.
      apply (IH ltac:(intros; apply Hok; by right) _ _ _ E) in Hk as [Hk|Hk].
      + apply keys_attr_set in Hk as [Hk| ->]; [auto|]. right. rewrite (ok_in_case ns q) by done. left.
      + right. by right.
  Qed.

  Lemma keys_attr_drop q l k : k ∈ keys (attr_drop q l) -> k ∈ keys l.
  Proof.
    induction l as [|[k' v] l IH]; cbn; [done|]. destruct (qname_eqb k' q); [by right|].
    intros Hk. apply elem_of_cons in Hk as [->|Hk]; [left|right; auto].
  Qed.
  Lemma b_clear_keys ns l k : k ∈ keys (b_clear ns l) -> k ∈ keys l.
  Proof.
    unfold b_clear. generalize (nodup string_dec (map (fun kv => q_local (fst kv)) l)) as ns'.
    intros ns'. revert l. induction ns' as [|n ns' IH]; intros l; cbn [fold_left]; [done|].
    intros Hk. apply IH in Hk. by apply keys_attr_drop in Hk.
  Qed.

  Lemma last_value_battrs l q v : NoDup (map bname (keys l)) -> (q, v) ∈ l ->
    last_value (bname q) (battrs l) = Some v.
  Proof.
    induction l as [|[k w] l IH]; intros Hnd Hin; [by apply elem_of_nil in Hin|].
    cbn [keys map fst] in Hnd. apply NoDup_cons in Hnd as [Hk Hnd].
    change (battrs ((k, w) :: l)) with ((flat (bname k), w) :: battrs l). cbn [last_value].
    apply elem_of_cons in Hin as [[= -> ->]|Hin].
    - assert (last_value (bname k) (battrs l) = None) as ->.
      { clear -Hk. induction l as [|[k' w] l IH]; [done|]. cbn [keys map fst] in Hk.
        apply not_elem_of_cons in Hk as [Hne Hk]. change (battrs ((k', w) :: l)) with ((flat (bname k'), w) :: battrs l).
        cbn [last_value]. rewrite IH by done. cbn [flat q_local].
        by destruct (String.eqb_spec (bname k') (bname k)). }
      cbn [flat q_local]. by rewrite String.eqb_refl.
    - by rewrite IH.
  Qed.

  Lemma b_set_changes_battrs ns od x : NoDup (map bname (keys x)) -> forall y forced l,
    (forall q, q ∈ keys y -> ok_attr q) ->
    NoDup (keys l ++ map flat (map bname (keys y)))%list ->
    b_set_changes valid_attr ns (battrs x) l (props_diff_loop x od forced y) = ((l ++ battrs y)%list, true).
  Proof.
    intros Hx. induction y as [|[q v] y IH]; intros forced l Hok Hnd; cbn [props_diff_loop b_set_changes].
    - by rewrite app_nil_r.
    - assert (ok_attr q) as Hq by (apply Hok; left). cbn [pc_name pc_value].
      set (w := match (if _ && _ then None else Some v) with Some v => v | None => _ end).
      assert (w = v) as ->.
      { unfold w. destruct (attr_get q x) as [v'|] eqn:Eg; [|done].
        destruct (String.eqb_spec v' v) as [->|]; [|done].
        destruct (negb _); [|done]. cbn [andb]. rewrite bname_up_ok by done.
        by rewrite (last_value_battrs x q v) by (try done; by apply attr_get_elem). }
      rewrite bname_up_ok by done. unfold b_set_attr. destruct Hq as (Hv & Hq). rewrite Hv.
      rewrite (ok_in_case ns q) by done. cbn [keys map fst] in Hnd.
      rewrite attr_set_fresh. 2:{ intros Hin. apply NoDup_app in Hnd as (_ & Hd & _). apply (Hd _ Hin). left. }
      rewrite IH; [by rewrite <- app_assoc|intros; apply Hok; by right|].
      unfold keys at 1. rewrite map_app. cbn [map fst]. by rewrite <- app_assoc.
  Qed.

  Lemma b_clear_battrs ns l : ok_attrs l -> b_clear ns (battrs l) = [].
  Proof.
    intros [Hok Hnd]. unfold b_clear.
    assert (map (fun kv => q_local (fst kv)) (battrs l) = map bname (keys l)) as ->.
    { unfold battrs, keys. by rewrite !map_map. }
    rewrite nodup_fixed_point by (by apply NoDup_ListNoDup).
    clear Hnd. induction l as [|[q v] l IH]; [done|]. cbn [keys map fst fold_left].
    change (battrs ((q, v) :: l)) with ((flat (bname q), v) :: battrs l).
    unfold b_remove_attr at 2. rewrite (ok_in_case ns q) by (apply Hok; left).
    rewrite attr_drop_head. apply IH. intros q' Hq'. apply Hok. by right.
  Qed.

  (** ** Placing nodes *)

  Lemma not_above_is_ancestor (a : arena dnode) n p : wf a -> ~ above a n p -> is_ancestor a n p = Some false /\ n <> p.
  Proof.
    intros W Hna. destruct (wf_chain _ W p) as [l Hl].
    destruct (not_above_chain _ _ _ _ Hna Hl) as [Hne Hnl]. split; [|done].
    unfold is_ancestor. rewrite (ancestors_chain _ _ _ _ Hl) by (unfold chain_fuel; pose proof (chain_length _ _ _ W Hl); lia).
    f_equal. apply not_true_is_false. intros He. apply existsb_exists in He as (x & Hx & Ex).
    apply Nat.eqb_eq in Ex as <-. by apply Hnl, elem_of_list_In.
  Qed.

  Lemma replace_child_took a p pos n d :
    wf a -> n < length a -> parent a n = None -> ~ above a n p -> children a p !! pos = Some d ->
    exists a', replace_child a p n d = Val a' /\ dtook a a' p pos n d.
  Proof.
    intros W Hn Ho Hna Hd.
    assert (parent a d = Some p) as Hpd. { apply (wf_pc _ W). by eapply elem_of_list_lookup_2. }
    destruct (not_above_is_ancestor a n p W Hna) as [Ea Hnp].
    unfold replace_child. destruct (Nat.eqb_spec n p); [done|]. rewrite Ea.
    destruct (Nat.eqb_spec n d); [congruence|].
    destruct (insert_before_full a d n p W Hn Ho Hpd Hna) as (a1 & E1 & [W1 L1 D1 C1 P1]).
    rewrite E1. cbn [obind]. eexists. split; [reflexivity|].
    destruct (detach_full a1 d W1) as [W2 L2 D2 C2 P2]. split.
    - done.
    - lia.
    - intros j. by rewrite D2, D1.
    - intros j. rewrite C2, C1. destruct (Nat.eqb_spec j p) as [->|Hj].
      + apply replace_occupant; [apply W|done|]. by apply orphan_notin.
      + apply remove_id_notin. intros Hin. apply (wf_pc a W) in Hin. congruence.
    - intros j. rewrite P2, P1. done.
  Qed.

  Lemma took_grew a a' p pos n d : wf a -> children a p !! pos = Some d -> dtook a a' p pos n d -> n <> d ->
    dgrew 1 a a' p pos n.
  Proof.
    intros Wa Hd [W L D C P] Hnd. pose proof (lookup_lt_Some _ _ _ Hd) as Hlt. split.
    - done.
    - lia.
    - intros j _. apply D.
    - intros j Hj. lia.
    - intros j. rewrite C. destruct (Nat.eqb j p); [|done].
      replace (pos - length (children a p)) with 0 by lia. cbn [seq]. rewrite app_nil_r.
      by rewrite insert_take_drop.
    - intros j. rewrite P, L. destruct (Nat.eqb_spec j d) as [->|Hjd].
      + destruct (Nat.eqb_spec d n); [done|].
        destruct (Nat.leb_spec (length a) d), (Nat.ltb_spec d (length a)); try lia; cbn [andb];
          (case_bool_decide as Hb; [done|destruct Hb]);
          rewrite (drop_S _ _ _ Hd); left.
      + destruct (Nat.eqb j n); [done|].
        destruct (Nat.leb_spec (length a) j), (Nat.ltb_spec j (length a)); try lia; cbn [andb];
          (case_bool_decide as Hb; [|done]);
          rewrite (drop_S _ _ _ Hd) in Hb; cbn [take] in Hb; apply elem_of_list_singleton in Hb; done.
  Qed.

  Lemma b_put {OQ : opaques} a sl n p pos slot :
    wf a -> p < length a -> n < length a -> parent a n = None -> ~ above a n p -> slot_fits a p pos slot ->
    exists a' sl', b_insert_at_position a sl p n pos slot = ((a', sl'), Val tt) /\ places a sl n p pos slot a' sl'.
  Proof.
    intros W Hp Hn Ho Hna Hs. unfold b_insert_at_position.
    destruct (children a p !! pos) as [d|] eqn:Ed.
    - destruct (replace_child_took a p pos n d W Hn Ho Hna Ed) as (a' & E & T). rewrite E.
      destruct slot as [k|].
      + eexists _, _. split; [reflexivity|]. by exists d.
      + eexists _, _. split; [reflexivity|]. split; [|done]. exists 1. apply (took_grew a a' p pos n d); try done.
        intros ->. apply elem_of_list_lookup_2, (wf_pc _ W) in Ed. congruence.
    - destruct slot as [k|].
      { destruct Hs as [_ Hlt]. apply lookup_ge_None in Ed. lia. }
      destruct (insert_at_position_grew a p pos n W Hp Hn Ho Hna) as (a' & E & G).
      exists a', sl. split; [|by split; [exists 0|]].
      unfold insert_at_position in E.
      destruct (fill_gaps_full (text_node "") (pos - length (children a p)) a p W Hp)
        as (a1 & E1 & Fl). rewrite E1 in E |- *. cbn [obind] in E |- *.
      destruct Fl as [_ _ _ _ C1 _].
      assert (children a1 p !! pos = None) as En.
      { apply lookup_ge_None. rewrite C1, Nat.eqb_refl, app_length, seq_length.
        apply lookup_ge_None in Ed. lia. }
      rewrite En in E. unfold dom_append. rewrite E. done.
  Qed.

  (** ** The program, with the root kept as slot 0 *)

  Definition root_of (sl : slots) : nat := match slot_get sl 0 with Some rt => rt | None => 0 end.
  (** Patches that store to slot 0 or take from it are left out. *)
  Definition to_slot0 (slot : option nat) : bool := match slot with Some 0 => true | _ => false end.
  Definition touches_slot0 (p : patch) : bool :=
    match p with
    | PInsertElement _ _ _ _ slot | PInsertText _ _ slot | PInsertComment _ _ slot => to_slot0 slot
    | PMove from _ slot => match from with [0] => true | _ => to_slot0 slot end
    | _ => false
    end.
  Definition b_ap (st : pstate) (p : patch) : presult :=
    if touches_slot0 p then (st, Panic)
    else b_apply_patch valid_elem valid_attr parse_template (root_of (snd st)) st p.

  Lemma find_node_nav a sl q n : navigate_slot_path a sl q = Val n -> find_node (root_of sl) a sl q = Val n.
  Proof.
    unfold find_node, navigate_slot_path, get_slot_root, root_of. destruct q as [|k rel]; [done|].
    destruct (Nat.eqb_spec k 0) as [->|]; cbn [obind]; by destruct (slot_get sl _).
  Qed.

  Lemma slot_take_other sl k j : j <> k -> slot_get (slot_take sl k) j = slot_get sl j.
  Proof.
    intros Hj. induction sl as [|[i v] sl IH]; [done|]. cbn [slot_take List.filter fst].
    destruct (Nat.eqb_spec i k) as [->|]; cbn [negb slot_get].
    - destruct (Nat.eqb_spec k j); [lia|]. apply IH.
    - destruct (Nat.eqb i j); [done|]. apply IH.
  Qed.

  Lemma slot_take_same sl k : slot_get (slot_take sl k) k = None.
  Proof.
    induction sl as [|[i v] sl IH]; [done|]. cbn [slot_take List.filter fst].
    destruct (Nat.eqb_spec i k) as [->|Hi]; cbn [negb]; [apply IH|]. cbn [slot_get].
    destruct (Nat.eqb_spec i k); [done|]. apply IH.
  Qed.

  Lemma get_slot_parent_inv a sl at_ p pos : get_slot_parent a sl at_ = Val (p, pos) ->
    Nat.ltb (length at_) 2 = false /\ navigate_slot_path a sl (removelast at_) = Val p /\ List.last at_ 0 = pos.
  Proof.
    unfold get_slot_parent. destruct (Nat.ltb (length at_) 2); [done|].
    destruct (navigate_slot_path a sl (removelast at_)); cbn [obind]; try done. by intros [= -> ->].
  Qed.

  Lemma nav_new a d sl q n : wf a -> navigate_slot_path (fst (new_node a d)) sl q = Val n <-> navigate_slot_path a sl q = Val n.
  Proof.
    intros W. destruct (new_node_full a d W) as (_ & _ & _ & _ & _ & Cj & _).
    assert (forall p c, navigate (fst (new_node a d)) c p = navigate a c p) as Hn.
    { induction p as [|i p IH]; intros c; cbn [navigate]; [done|]. rewrite Cj. by destruct (children a c !! i). }
    unfold navigate_slot_path. destruct q as [|k rel]; [done|]. destruct (slot_get sl k); [|done]. by rewrite Hn.
  Qed.

  Lemma b_insert_run {OQ : opaques} a sl d make at_ slot p pos :
    wf a -> make a = Val (new_node a d) ->
    can_put (fst (new_node a d)) sl (length a) at_ slot p pos ->
    exists a' sl', b_insert (root_of sl) (a, sl) at_ slot make = ((a', sl'), Val tt) /\
      places (fst (new_node a d)) sl (length a) p pos slot a' sl'.
  Proof.
    intros W Hm (Hg & Hp & He & Hn & Ho & Hna & Hs).
    apply get_slot_parent_inv in Hg as (Hl & Hnav & <-). apply (nav_new a d sl _ _ W) in Hnav.
    destruct (new_node_full a d W) as (W1 & L1 & P1 & C1 & D1 & Cj & Pj & Dj).
    unfold b_insert. rewrite Hl. unfold with_found. cbn [fst snd].
    rewrite (find_node_nav a sl _ _ Hnav).
    assert (p <> length a) as Hpn.
    { intros ->. apply Hna. by apply above_refl. }
    apply is_cont_kind in He as (tag & l & He). unfold node_kind in He |- *. rewrite Dj in He by done.
    destruct (data a p) as [dp|]; [|done]. injection He as ->. rewrite Hm.
    change (new_node a d) with (fst (new_node a d), length a) at 1. cbv beta iota.
    by apply b_put.
  Qed.

  Lemma b_move_run {OQ : opaques} a sl n to slot p pos :
    wf a -> can_put a sl n to slot p pos ->
    exists a' sl',
      (if Nat.ltb (length to) 2 then ((a, sl), Fail EmptyPath)
       else
         with_found (root_of sl) (a, sl) (removelast to) (fun p =>
           match node_kind a p with
           | Some (NElem _ _) => b_insert_at_position a sl p n (List.last to 0) slot
           | _ => ((a, sl), Fail NotAnElement)
           end)) = ((a', sl'), Val tt) /\ places a sl n p pos slot a' sl'.
  Proof.
    intros W (Hg & Hp & He & Hn & Ho & Hna & Hs).
    apply get_slot_parent_inv in Hg as (Hl & Hnav & <-). rewrite Hl. unfold with_found. cbn [fst snd].
    rewrite (find_node_nav a sl _ _ Hnav). apply is_cont_kind in He as (tag & l & ->). by apply b_put.
  Qed.

  Lemma vacate_full a n q : wf a -> parent a n = Some q ->
    exists a1, vacate a n = Val a1 /\ replaced a a1 n (text_node "").
  Proof.
    intros W Hq. unfold vacate. rewrite Hq. apply replace_leaf_full; [done|]. by eapply parent_lt.
  Qed.

  Lemma root_of_take sl k : k <> 0 -> root_of (slot_take sl k) = root_of sl.
  Proof. intros Hk. unfold root_of. by rewrite slot_take_other by lia. Qed.

  Lemma slot_take_less sl k : slots_less k (slot_take sl k) sl.
  Proof.
    split; [intros; by apply slot_take_other|]. intros j r. destruct (decide (j = k)) as [->|Hj].
    - by rewrite slot_take_same.
    - by rewrite slot_take_other.
  Qed.

  Lemma move_slot0 {OQ : opaques} a p pos from to slot : slot_fits a p pos slot -> from <> [0] -> touches_slot0 (PMove from to slot) = false.
  Proof.
    intros Hs Hf. assert (to_slot0 slot = false) as Ht by (destruct slot as [[]|]; [by destruct Hs|done|done]).
    cbn [touches_slot0]. destruct from as [|[] []]; done.
  Qed.

  Theorem browser_applier : applier (OQ := no_opaques) battrs b_okn (=) b_ap.
  Proof.
    split.
    - intros st a sl k -> W Hk. exists (mkD (vkind battrs k) NsHtml). split; [done|].
      intros at_ slot p pos Hc. unfold b_ap. cbn [fst snd].
      assert (touches_slot0 (mk_insert k at_ slot) = false) as ->.
      { destruct Hc as (_ & _ & _ & _ & _ & _ & Hs). destruct slot as [[|k']|]; [|by destruct k|by destruct k].
        by destruct Hs. }
      assert (forall make, make a = Val (new_node a (mkD (vkind battrs k) NsHtml)) ->
        exists st' a' sl', b_insert (root_of sl) (a, sl) at_ slot make = (st', Val tt) /\ st' = (a', sl') /\
          places (fst (new_node a (mkD (vkind battrs k) NsHtml))) sl (length a) p pos slot a' sl') as Hrun.
      { intros make Hm. destruct (b_insert_run a sl _ make at_ slot p pos W Hm Hc) as (a' & sl' & E & P).
        by exists (a', sl'), a', sl'. }
      destruct k as [|tag l|s|s]; cbn [mk_insert b_apply_patch]; try (by apply Hrun).
      apply Hrun. cbn [b_create]. by rewrite b_create_ok.
    - intros st a sl from n q -> W Hl Hn Hq _. destruct (vacate_full a n q W Hq) as (a1 & E1 & R).
      exists a1. split; [done|]. intros to slot p pos Hc.
      destruct (b_move_run a1 sl n to slot p pos (rp_wf _ _ _ _ R) Hc) as (a' & sl' & E & P).
      exists (a', sl'), a', sl'. split; [|done]. unfold b_ap. cbn [fst snd b_apply_patch].
      assert (touches_slot0 (PMove from to slot) = false) as ->.
      { destruct Hc as (_ & _ & _ & _ & _ & _ & Hs). apply (move_slot0 (OQ := no_opaques) a1 p pos); [done|].
        intros ->. simpl in Hl. lia. }
      destruct from as [|k0 [|k1 from]]; [simpl in Hl; lia|simpl in Hl; lia|].
      rewrite (find_node_nav a sl _ _ Hn). cbn [obind]. rewrite E1. cbn [obind]. exact E.
    - intros st a sl k n -> W Hk Hg Ho. exists (slot_take sl k). split; [apply slot_take_less|].
      intros to slot p pos Hc.
      destruct (b_move_run a (slot_take sl k) n to slot p pos W Hc) as (a' & sl' & E & P).
      exists (a', sl'), a', sl'. split; [|done]. unfold b_ap. cbn [fst snd b_apply_patch].
      assert (touches_slot0 (PMove [k] to slot) = false) as ->.
      { destruct Hc as (_ & _ & _ & _ & _ & _ & Hs). apply (move_slot0 (OQ := no_opaques) a p pos); [done|]. by intros [= ->]. }
      rewrite Hg.
      rewrite root_of_take in E by done. exact E.
    - intros st a sl q n p -> W Hl Hn Hq _. destruct (vacate_full a n p W Hq) as (a1 & E1 & R).
      exists (a1, sl), a1. split; [done|]. split; [|done]. unfold b_ap. cbn [fst snd b_apply_patch touches_slot0].
      destruct q as [|k0 [|k1 q]]; [simpl in Hl; lia|simpl in Hl; lia|].
      cbn [length Nat.eqb]. rewrite andb_false_r. unfold with_found. cbn [fst snd].
      rewrite (find_node_nav a sl _ _ Hn), E1. done.
    - intros st a sl k n -> W Hk Hg Hlt Ho. exists (a, slot_take sl k), a, (slot_take sl k). split; [by apply kept_refl|].
      split; [apply slot_take_less|]. split; [|done]. unfold b_ap. cbn [fst snd b_apply_patch touches_slot0].
      by destruct (Nat.eqb_spec k 0).
    - intros st a sl q n tag l0 l l' -> W Hn Hk [_ [_ Hl]] [_ [_ Hl']] N1 N2 _ _ _.
      unfold b_ap. cbn [fst snd b_apply_patch touches_slot0]. unfold with_found. cbn [fst snd].
      rewrite (find_node_nav a sl _ _ Hn).
      assert (find (fun c => match pc_name c with PText => true | PAttr _ => false end) (props_diff l l') = None) as ->.
      { apply props_diff_no_text. }
      unfold node_kind in Hk. destruct (data a n) as [[k ns]|] eqn:Ed; [|done]. injection Hk as ->.
      destruct Hl as [Ho Hd], Hl' as [Ho' Hd'].
      destruct (b_set_changes_ok ns l0 (order_differs l l') false l l' (b_clear ns l0) Ho') as (L & EL).
      unfold props_diff in *. rewrite EL. eexists _, L. split; [reflexivity|]. split; [done|]. split; [|split; [done|]].
      + intros ->. rewrite b_clear_battrs in EL by done.
        rewrite b_set_changes_battrs in EL; [by injection EL as <-|done|done|].
        cbn [keys map app]. by apply (NoDup_fmap_2 _ _).
      + intros k Hk. apply (b_set_changes_keys ns l0 (order_differs l l') l l' Ho' false (b_clear ns l0) L EL) in Hk
          as [Hk|Hk]; [left|by right]. by apply b_clear_keys in Hk.
    - intros st a sl q n s s' -> _ Hn Hk. eexists. split; [|reflexivity]. unfold b_ap. cbn [fst snd b_apply_patch touches_slot0]. unfold with_found. cbn [fst snd].
      rewrite (find_node_nav a sl _ _ Hn). unfold set_text_content. by rewrite Hk.
    - intros st a sl q n s s' -> _ Hn Hk. eexists. split; [|reflexivity]. unfold b_ap. cbn [fst snd b_apply_patch touches_slot0]. unfold with_found. cbn [fst snd].
      rewrite (find_node_nav a sl _ _ Hn). unfold set_text_content. by rewrite Hk.
  Qed.

  (** ** From [b_ap] to the program *)

  Definition agree (sl sl' : slots) : Prop := forall k, k <> 0 -> slot_get sl k = slot_get sl' k.
  Definition same_res (r r' : presult) : Prop :=
    fst (fst r) = fst (fst r') /\ agree (snd (fst r)) (snd (fst r')) /\ snd r = snd r'.

  Section Agree.
    Variables (rt : nat) (a : arena dnode) (sl sl' : slots).
    Hypothesis AG : agree sl sl'.

    Lemma agree_find a1 q : find_node rt a1 sl q = find_node rt a1 sl' q.
    Proof.
      unfold find_node, get_slot_root. destruct q as [|k q]; [done|].
      destruct (Nat.eqb_spec k 0); [done|]. by rewrite AG.
    Qed.
    Lemma same_refl a1 o : same_res ((a1, sl), o) ((a1, sl'), o).
    Proof. by split_and!. Qed.
    Lemma same_lift a1 o : same_res (plift (a1, sl) o) (plift (a1, sl') o).
    Proof. by destruct o; split_and!. Qed.
    Lemma same_with a1 q f f' : (forall n, same_res (f n) (f' n)) ->
      same_res (with_found rt (a1, sl) q f) (with_found rt (a1, sl') q f').
    Proof.
      intros Hf. unfold with_found. cbn [fst snd]. rewrite agree_find.
      destruct (find_node rt a1 sl' q); [apply Hf|apply same_refl..].
    Qed.
    Lemma same_put a1 p n pos slot : same_res (b_insert_at_position a1 sl p n pos slot) (b_insert_at_position a1 sl' p n pos slot).
    Proof.
      unfold b_insert_at_position. destruct (children a1 p !! pos); [|destruct (fill_gaps _ _ a1 p); apply same_lift].
      destruct (replace_child a1 p n _); [|apply same_lift..].
      split_and!; cbn [fst snd]; [done| |done]. destruct slot as [k|]; [|done].
      intros j Hj. unfold slot_set. cbn [slot_get]. destruct (Nat.eqb k j); [done|by apply AG].
    Qed.
    Lemma same_insert at_ slot make : same_res (b_insert rt (a, sl) at_ slot make) (b_insert rt (a, sl') at_ slot make).
    Proof.
      unfold b_insert. destruct (Nat.ltb _ 2); [apply same_refl|]. apply same_with. intros n. cbn [fst snd].
      destruct (node_kind a n) as [[]|]; try apply same_refl.
      destruct (make a) as [[a1 i]| | |]; [apply same_put|apply same_refl..].
    Qed.
  End Agree.

  Lemma agree_take sl sl' k : agree sl sl' -> agree (slot_take sl k) (slot_take sl' k).
  Proof.
    intros AG j Hj. destruct (decide (j = k)) as [->|Hne]; [|by rewrite !slot_take_other; auto].
    by rewrite !slot_take_same.
  Qed.

  Notation bap := (b_apply_patch valid_elem valid_attr parse_template).

  Lemma same_apply rt a sl sl' p : agree sl sl' -> touches_slot0 p = false -> same_res (bap rt (a, sl) p) (bap rt (a, sl') p).
  Proof.
    intros AG Ht. destruct p as [at_ tag ats cs slot|at_ s slot|at_ s slot|q|q s|q n v|q n|q t slot|q ch|q s];
      cbn [b_apply_patch]; try (by apply same_insert).
    - destruct q as [|k rel]; [by apply same_refl|].
      destruct (negb (Nat.eqb k 0) && Nat.eqb (length rel) 0).
      + split_and!; cbn [fst snd]; [done| |done]. by apply agree_take.
      + apply same_with; [done|]. intros n. by apply same_lift.
    - apply same_with; [done|]. intros n. by apply same_lift.
    - apply same_with; [done|]. intros m. destruct (data a m) as [[[] ns]|]; try by apply same_refl.
      destruct (b_set_attr _ _ _ _); by apply same_refl.
    - apply same_with; [done|]. intros m. destruct (data a m) as [[[] ns]|]; by apply same_refl.
    - assert (forall a1 s1 s1' n, agree s1 s1' -> same_res
        (if Nat.ltb (length t) 2 then ((a1, s1), Fail EmptyPath)
         else with_found rt (a1, s1) (removelast t) (fun p =>
           match node_kind a1 p with
           | Some (NElem _ _) => b_insert_at_position a1 s1 p n (List.last t 0) slot
           | _ => ((a1, s1), Fail NotAnElement)
           end))
        (if Nat.ltb (length t) 2 then ((a1, s1'), Fail EmptyPath)
         else with_found rt (a1, s1') (removelast t) (fun p =>
           match node_kind a1 p with
           | Some (NElem _ _) => b_insert_at_position a1 s1' p n (List.last t 0) slot
           | _ => ((a1, s1'), Fail NotAnElement)
           end))) as Hput.
      { intros a1 s1 s1' n A1. destruct (Nat.ltb _ 2); [by apply same_refl|]. apply same_with; [done|]. intros p.
        destruct (node_kind a1 p) as [[]|]; try by apply same_refl. by apply same_put. }
      destruct q as [|k [|k1 q]].
      + cbn [find_node obind]. by apply same_refl.
      + assert (k <> 0) as Hk. { by intros ->. }
        rewrite (AG k Hk). destruct (slot_get sl' k) as [n|]; [|by apply same_refl].
        apply Hput. by apply agree_take.
      + rewrite (agree_find rt sl sl' AG). destruct (find_node rt a sl' _) as [n| | |]; cbn [obind]; try by apply same_refl.
        destruct (vacate a n) as [a1| | |]; cbn [obind]; try by apply same_refl. by apply Hput.
    - apply same_with; [done|]. intros n. cbv zeta.
      match goal with |- context [match ?t with Val _ => _ | _ => _ end] => destruct t as [a1| | |] end; try by apply same_refl.
      destruct (data a1 n) as [[[] ns]|]; try by apply same_refl.
      destruct (b_set_changes _ _ _ _ _) as [l' []]; by apply same_refl.
    - apply same_with; [done|]. intros n. destruct (node_kind a n) as [[]|]; by apply same_refl.
  Qed.

  (** The root does not change. *)
  Definition keeps0 (sl : slots) (r : presult) : Prop := slot_get (snd (fst r)) 0 = slot_get sl 0.

  Lemma keeps0_with rt a sl q f : (forall n, keeps0 sl (f n)) -> keeps0 sl (with_found rt (a, sl) q f).
  Proof. intros Hf. unfold with_found. cbn [fst snd]. destruct (find_node _ _ _ _); [apply Hf|done..]. Qed.
  Lemma keeps0_lift a sl o : keeps0 sl (plift (a, sl) o).
  Proof. by destruct o. Qed.
  Lemma keeps0_put a sl p n pos slot : to_slot0 slot = false -> keeps0 sl (b_insert_at_position a sl p n pos slot).
  Proof.
    intros Ht. unfold b_insert_at_position. destruct (children a p !! pos); [|destruct (fill_gaps _ _ a p); apply keeps0_lift].
    destruct (replace_child a p n _); [|apply keeps0_lift..]. by destruct slot as [[]|].
  Qed.
  Lemma keeps0_insert rt a sl at_ slot make : to_slot0 slot = false -> keeps0 sl (b_insert rt (a, sl) at_ slot make).
  Proof.
    intros Ht. unfold b_insert. destruct (Nat.ltb _ 2); [done|]. apply keeps0_with. intros n. cbn [fst snd].
    destruct (node_kind a n) as [[]|]; try done. destruct (make a) as [[a1 i]| | |]; [by apply keeps0_put|done..].
  Qed.

  Lemma keeps0_apply rt a sl p : touches_slot0 p = false -> keeps0 sl (bap rt (a, sl) p).
  Proof.
    intros Ht. destruct p as [at_ tag ats cs slot|at_ s slot|at_ s slot|q|q s|q n v|q n|q t slot|q ch|q s];
      cbn [b_apply_patch touches_slot0] in *; try (by apply keeps0_insert).
    - destruct q as [|k rel]; [done|]. destruct (Nat.eqb_spec k 0); cbn [negb andb].
      + apply keeps0_with. intros n. apply keeps0_lift.
      + destruct (Nat.eqb (length rel) 0); [|apply keeps0_with; intros m; apply keeps0_lift].
        unfold keeps0. cbn [fst snd]. apply slot_take_other. lia.
    - apply keeps0_with. intros n. apply keeps0_lift.
    - apply keeps0_with. intros m. destruct (data a m) as [[[] ns]|]; try done. by destruct (b_set_attr _ _ _ _).
    - apply keeps0_with. intros m. by destruct (data a m) as [[[] ns]|].
    - assert (to_slot0 slot = false) as Hs by (by destruct q as [|[] []]).
      assert (forall a1 s1 n, slot_get s1 0 = slot_get sl 0 -> keeps0 sl
        (if Nat.ltb (length t) 2 then ((a1, s1), Fail EmptyPath)
         else with_found rt (a1, s1) (removelast t) (fun p =>
           match node_kind a1 p with
           | Some (NElem _ _) => b_insert_at_position a1 s1 p n (List.last t 0) slot
           | _ => ((a1, s1), Fail NotAnElement)
           end))) as Hput.
      { intros a1 s1 n E. unfold keeps0. rewrite <- E. destruct (Nat.ltb _ 2); [done|]. apply keeps0_with. intros p.
        destruct (node_kind a1 p) as [[]|]; try done. by apply keeps0_put. }
      destruct q as [|k [|k1 q]].
      + done.
      + assert (k <> 0) as Hk. { by intros ->. }
        destruct (slot_get sl k) as [n|]; [|done]. apply Hput. apply slot_take_other. lia.
      + destruct (find_node rt a sl _) as [n| | |]; cbn [obind]; try done.
        destruct (vacate a n) as [a1| | |]; cbn [obind]; try done. by apply Hput.
    - apply keeps0_with. intros n. cbv zeta.
      match goal with |- context [match ?t with Val _ => _ | _ => _ end] => destruct t as [a1| | |] end; try done.
      destruct (data a1 n) as [[[] ns]|]; try done. by destruct (b_set_changes _ _ _ _ _) as [l' []].
    - apply keeps0_with. intros n. by destruct (node_kind a n) as [[]|].
  Qed.

  Lemma b_ap_run rt ps : forall a sl sl' st,
    slot_get sl 0 = Some rt -> agree sl sl' -> run_all b_ap (a, sl) ps = (st, Val tt) ->
    exists sl1, b_apply_all valid_elem valid_attr parse_template rt (a, sl') ps = ((fst st, sl1), Val tt).
  Proof.
    induction ps as [|p ps IH]; intros a sl sl' st H0 AG Hr; cbn [run_all b_apply_all] in *.
    - injection Hr as <-. by exists sl'.
    - unfold b_ap at 1 in Hr. cbn [snd] in Hr. destruct (touches_slot0 p) eqn:Ht; [done|].
      unfold root_of in Hr. rewrite H0 in Hr.
      destruct (same_apply rt a sl sl' p AG Ht) as (E1 & E2 & E3). pose proof (keeps0_apply rt a sl p Ht) as K.
      unfold keeps0 in K.
      destruct (bap rt (a, sl) p) as [[a1 s1] r1], (bap rt (a, sl') p) as [[a2 s2] r2]. cbn [fst snd] in *. subst a2 r2.
      destruct r1 as [[]| | |]; try done. apply (IH a1 s1 s2 st); [congruence|done|done].
  Qed.
End Browser.
