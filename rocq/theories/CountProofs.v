(** How many patches the conversion of an edit script gives when nodes may be moved
    below themselves: moving the children of such a node out of the way costs one
    patch per child, and leaves a placeholder for each.  Used for C32. *)
From stdpp Require Import list_numbers.
From Verif Require Import Base Arena Matching Chawathe Dom HtmlDiff
  ArenaProofs ArenaOps TreeProofs DtreeProofs MatchProofs ScriptProofs DomTree ApplyProofs
  ShadowProofs ConvProofs RoundProofs AssembleProofs ConvTotal.

(** Inner nodes have no fewer children than before. *)
Definition grows (N : nat) (s s' : shadow) : Prop :=
  forall x, inner N s x -> length (children (sh_arena s) x) <= length (children (sh_arena s') x).

(** Insertion adds a slot or fills gaps; a node that changes its parent gets a new slot. *)
Lemma sh_insert_count N s p pos n s' k :
  sinv N (Some n) s -> inner N s p -> n < length (sh_arena s) -> n <> N ->
  parent (sh_arena s) n = None -> ~ above (sh_arena s) n p ->
  sh_insert s p pos n = Val (s', k) ->
  length (sh_arena s) <= length (sh_arena s') /\ length (sh_arena s') <= length (sh_arena s) + (pos - length (children (sh_arena s) p)) + 1 /\
  pos < length (children (sh_arena s') p) /\ grows N s s' /\
  (forall x, x < length (sh_arena s) -> x <> n ->
     parent (sh_arena s') x = parent (sh_arena s) x \/ parent (sh_arena s') x = Some (length (sh_arena s))).
Proof.
  intros SI IP Hn HnN Hpn Hab E. pose proof (si_wf _ _ _ SI) as SW.
  pose proof (si_super _ _ _ SI) as ES.
  destruct IP as (Lp & HpN & HpS).
  destruct (children (sh_arena s) p !! pos) as [occ|] eqn:Eo.
  - destruct (sh_insert_took s p pos n occ) as (s1 & E1 & TK); try done; try congruence.
    rewrite E in E1. injection E1 as <- ->. rewrite (tk_len _ _ _ _ _ _ TK). split; [lia|]. split; [lia|]. split; [|split].
    { rewrite (tk_children _ _ _ _ _ _ TK), ES, (proj2 (Nat.eqb_neq p N)), (proj2 (Nat.eqb_neq p (length _))), Nat.eqb_refl, insert_length by (try done; lia).
      by eapply lookup_lt_Some. }
    { intros x (Lx & HxN & HxS). rewrite (tk_children _ _ _ _ _ _ TK), ES, (proj2 (Nat.eqb_neq x N)), (proj2 (Nat.eqb_neq x (length _))) by (try done; lia).
      destruct (Nat.eqb_spec x p) as [->|]; [by rewrite insert_length|done]. }
    intros x Hx Hne. rewrite (tk_parent _ _ _ _ _ _ TK).
    destruct (Nat.eqb_spec x occ); [by right|]. rewrite (proj2 (Nat.eqb_neq x (length _))) by lia.
    rewrite (proj2 (Nat.eqb_neq x n)) by done. by left.
  - destruct (sh_insert_grew s p pos n) as (s1 & E1 & GW); try done; try congruence.
    rewrite E in E1. injection E1 as <- ->. rewrite (gw_len _ _ _ _ _ GW). split; [lia|]. split; [lia|]. split; [|split].
    { rewrite (gw_children _ _ _ _ _ GW), Nat.eqb_refl, !app_length, seq_length. cbn. lia. }
    { intros x _. rewrite (gw_children _ _ _ _ _ GW).
      destruct (Nat.eqb_spec x p) as [->|]; [rewrite app_length; lia|done]. }
    intros x Hx Hne. rewrite (gw_parent _ _ _ _ _ GW).
    rewrite (proj2 (Nat.eqb_neq x n)) by done. rewrite (proj2 (Nat.leb_gt _ x)) by done. by left.
Qed.

Lemma out_of_place_count N s n s' :
  sinv N None s -> inner N s n -> n <> 0 -> out_of_place s n = Val s' ->
  length (sh_arena s') <= S (length (sh_arena s)) /\
  forall x, inner N s x -> length (children (sh_arena s') x) = length (children (sh_arena s) x).
Proof.
  intros SI IN Hn0 E. unfold out_of_place in E. pose proof (sw_wf _ (si_wf _ _ _ SI)) as W.
  destruct (match parent (sh_arena s) n with Some q => _ | None => false end) eqn:Er.
  - injection E as <-. cbn [sh_arena sh_with].
    destruct (detach_sh_full s n (si_wf _ _ _ SI)) as (_ & UL).
    { rewrite (si_super _ _ _ SI). apply IN. } { by eapply inner_parent. }
    cbn [sh_arena sh_with] in UL. rewrite (ul_len _ _ _ UL). split; [lia|].
    intros x IX. rewrite (ul_children _ _ _ UL), remove_id_notin; [done|]. intros Hin. apply (wf_pc _ W) in Hin.
    rewrite Hin in Er. destruct (parent (sh_arena s) x) as [g|] eqn:Eg; [|done]. apply Nat.eqb_eq in Er as ->.
    by apply (inner_parent _ _ _ _ SI IX).
  - destruct (placeholder_total N s n SI IN Hn0) as (s1 & E1 & _ & _ & RP). rewrite E in E1. injection E1 as <-.
    rewrite (rp_len _ _ _ _ RP). split; [lia|]. intros x (Lx & _).
    destruct (decide (parent (sh_arena s) n = Some x)) as [Hp|Hp].
    + pose proof Hp as Hin. apply (wf_pc _ W), elem_of_list_lookup in Hin as (i & Hi).
      by rewrite (rp_children _ _ _ _ RP x i Hp Hi), insert_length.
    + rewrite (rp_children_other _ _ _ _ RP); [done|lia|done].
Qed.

Lemma sh_move_count N s n p pos s' k :
  sinv N None s -> inner N s n -> n <> 0 -> inner N s p -> n <> p -> ~ above (sh_arena s) n p ->
  sh_move s n p pos = Val (s', k) ->
  length (sh_arena s) <= length (sh_arena s') /\ length (sh_arena s') <= length (sh_arena s) + (pos - length (children (sh_arena s) p)) + 2 /\
  pos < length (children (sh_arena s') p) /\ grows N s s' /\
  (forall x, x < length (sh_arena s) -> x <> n ->
     parent (sh_arena s') x = parent (sh_arena s) x \/
     exists q, parent (sh_arena s') x = Some q /\ length (sh_arena s) <= q).
Proof.
  intros SI IN Hn0 IP Hnp Hab EM. pose proof (sw_wf _ (si_wf _ _ _ SI)) as W.
  destruct (out_of_place_total N s n SI IN Hn0) as (s1 & E1 & SI1 & LA1 & Hpn & HP).
  pose proof (out_of_place_count N s n s1 SI IN Hn0 E1) as [HL1 HG1].
  pose proof (sw_wf _ (si_wf _ _ _ SI1)) as W1.
  assert (inner N s1 p) as IP1 by (by apply LA1).
  assert (inner N s1 n) as IN1 by (by apply LA1).
  assert (sh_is_ancestor s n p = Val false) as EA.
  { unfold sh_is_ancestor. by destruct (is_ancestor_not_above (sh_arena s) n p W Hnp) as [[-> _]|[_ ?]]. }
  rewrite (sh_move_insert s n p pos s1 EA E1 W1 (proj1 IP1) (proj1 IN1) Hpn) in EM.
  destruct (sh_insert_count N s1 p pos n s' k) as (HL' & HL & HQ & HG & HX); try done; try apply IN1.
  { eapply not_above_cut; [exact W|apply IP|exact HP|done]. }
  rewrite (HG1 p IP) in HL.
  split; [destruct LA1; lia|]. split; [lia|]. split; [done|]. split.
  { intros x Hx. rewrite <- (HG1 x Hx). apply HG. by apply LA1. }
  destruct LA1 as [HL0 _]. intros x Hx Hne.
  destruct (HX x ltac:(lia) Hne) as [->| ->].
  - left. rewrite HP by done. by rewrite (proj2 (Nat.eqb_neq x n)) by done.
  - right. eexists. split; [done|lia].
Qed.

(** The loop over the children. *)
Lemma reparent_count N a par pos : forall l (s s' : cstate),
  sinv N None (cs_shadow s) -> inner N (cs_shadow s) a -> a <> 0 ->
  parent (sh_arena (cs_shadow s)) a = Some par ->
  (forall i c, (i, c) ∈ l -> parent (sh_arena (cs_shadow s)) c = Some a) ->
  NoDup (map snd l) ->
  reparent_loop l par pos s = Val s' ->
  length (sh_arena (cs_shadow s')) = length (sh_arena (cs_shadow s)) + length l /\
  length (cs_out s') = length (cs_out s) + length l /\ grows N (cs_shadow s) (cs_shadow s') /\
  (forall x, x < length (sh_arena (cs_shadow s)) -> x ∉ map snd l ->
     parent (sh_arena (cs_shadow s')) x = parent (sh_arena (cs_shadow s)) x) /\
  (forall x, length (sh_arena (cs_shadow s)) <= x -> x < length (sh_arena (cs_shadow s')) ->
     parent (sh_arena (cs_shadow s')) x = Some a).
Proof.
  induction l as [|[i c] l IH]; intros s s' SI IA Ha0 HPa HC ND E.
  - injection E as <-. cbn [length]. split; [lia|]. split; [lia|]. split; [by intros x _|]. split; [done|]. lia.
  - cbn [reparent_loop] in E. apply NoDup_cons in ND as [Hnc ND]. cbn [snd] in Hnc.
    pose proof (sw_wf _ (si_wf _ _ _ SI)) as W.
    destruct (compute_path_total (cs_shadow s) c W) as (from & EF). rewrite EF in E. cbn [obind] in E.
    assert (parent (sh_arena (cs_shadow s)) c = Some a) as HPc by (apply (HC i c); left).
    destruct (reparent_step_full N (cs_shadow s) a par c (pos + 1 + i) SI IA Ha0 HPa HPc)
      as (sh1 & a2 & E1 & E2 & HL & HPn & HGr & SI2 & LA2 & HP2 & HPc2 & _ & _).
    rewrite E1 in E. cbn [obind] in E. cbv zeta in E. rewrite E2 in E. cbn [obind] in E. cbn [sh_arena sh_with] in *.
    destruct (ref_total (sh_with sh1 a2) par (pos + 1 + i) (sw_wf _ (si_wf _ _ _ SI2))) as (to & ET).
    rewrite ET in E. cbn [obind] in E.
    assert (c <> a) as Hca. { intros ->. by apply (above_not_parent _ _ _ W HPc), above_refl. }
    assert (c < length (sh_arena (cs_shadow s))) as Lc by (by eapply parent_lt).
    destruct (IH (emit s (sh_with sh1 a2) (PMove from to None)) s') as (L' & O' & G' & P' & N');
      cbn [cs_shadow emit cs_b2s]; try done.
    + by apply LA2.
    + cbn [sh_arena sh_with]. rewrite HP2; [done|apply IA|done].
    + intros j d Hd. cbn [sh_arena sh_with]. rewrite HP2.
      * apply (HC j d). by right.
      * eapply parent_lt. apply (HC j d). by right.
      * intros ->. apply Hnc. apply elem_of_list_fmap. by exists (j, c).
    + cbn [cs_shadow emit cs_out sh_arena sh_with length] in *. rewrite app_length in O'. cbn [length] in O'.
      split; [lia|]. split; [lia|]. split; [|split].
      * intros x IX. etransitivity; [apply HGr; destruct IX; lia|]. apply (G' x). by apply LA2.
      * intros x Hx Hnl. cbn [map snd] in Hnl. rewrite elem_of_cons in Hnl.
        rewrite P'; [|lia|tauto]. apply HP2; [done|tauto].
      * intros x Hx1 Hx2. destruct (decide (x = length (sh_arena (cs_shadow s)))) as [->|Hne].
        -- rewrite P'; [done|lia|]. intros Hin. apply elem_of_list_fmap in Hin as ([j d] & Ej & Hin). cbn [snd] in *.
           pose proof (parent_lt _ _ _ (HC j d ltac:(by right))). lia.
        -- apply N'; lia.
Qed.

Section Count.
  Context {H : Type}.
  Variables (N : nat) (tb : dtree H hkind attrs string) (rb : rose) (pairs : list (nat * nat)) (ins : list nat).
  Hypothesis PB : presents tb rb.
  Hypothesis N0 : 0 < N.
  Hypothesis PL : forall x y, (x, y) ∈ pairs -> x < N.
  Hypothesis PF : forall x y y', (x, y) ∈ pairs -> (x, y') ∈ pairs -> y = y'.

  (** [fut]: the nodes still to be moved.  All nodes but those of a list of dead
      placeholders, none of which is a child of a node still to be moved, are at most [L]. *)
  Definition live (fut : list nat) (L : nat) (s : shadow) : Prop :=
    exists dead, NoDup dead /\ length (sh_arena s) <= length dead + L /\
      forall x, x ∈ dead -> N <= x /\ x < length (sh_arena s) /\ forall p, parent (sh_arena s) x = Some p -> p ∉ fut.

  Lemma live_children fut L s a : wf (sh_arena s) -> live fut L s -> a ∈ fut -> length (children (sh_arena s) a) <= L.
  Proof.
    intros W (dead & ND & HL & HD) Ha.
    assert (length (children (sh_arena s) a ++ dead) <= length (sh_arena s)) as Hle.
    { rewrite <- (seq_length (length (sh_arena s)) 0). apply submseteq_length, NoDup_submseteq.
      - apply NoDup_app. split; [apply (wf_nd _ W)|]. split; [|done].
        intros x Hx Hd. apply (wf_pc _ W) in Hx. destruct (HD x Hd) as (_ & _ & HP). by apply (HP a Hx).
      - intros x Hx. apply elem_of_seq. apply elem_of_app in Hx as [Hx|Hx].
        + pose proof (wf_child_lt _ _ _ W Hx). lia.
        + destruct (HD x Hx) as (_ & ? & _). lia. }
    rewrite app_length in Hle. lia.
  Qed.

  Definition subject (op : hop) : list nat := match op with Move a _ _ _ => [a] | _ => [] end.
  Definition cost (op : hop) (L : nat) : nat := match op with Move _ _ _ _ => S L | _ => 1 end.

  Lemma live_less f fut L s : live (f ++ fut) L s -> live fut L s.
  Proof.
    intros (dead & ND & HL & HD). exists dead. split; [done|]. split; [done|]. intros x Hx.
    destruct (HD x Hx) as (H1 & H2 & H3). split; [done|]. split; [done|]. intros p Hp Hin. apply (H3 p Hp).
    apply elem_of_app. by right.
  Qed.
  Lemma live_le fut L L' s : live fut L s -> L <= L' -> live fut L' s.
  Proof. intros (dead & ND & HL & HD) HLL. exists dead. split; [done|]. split; [lia|done]. Qed.

  (** Where the children of new node [b] are put, and how many of the [deg b] places
      there are not yet filled. *)
  Definition place (s : cstate) (b : nat) : nat := match slot_get (cs_b2s s) b with Some n => n | None => 0 end.
  Variable deg : nat -> nat.
  Definition unfilled (s : cstate) (b : nat) : nat := deg b - length (children (sh_arena (cs_shadow s)) (place s b)).
  Definition sets (op : hop) : list nat := match op with Insert b _ _ _ | Move _ b _ _ => [b] | _ => [] end.
  (** [D] contains the parents; positions are below their degree. *)
  Variable D : list nat.
  Hypothesis DND : NoDup D.
  Definition placed (op : hop) : Prop :=
    match op with Insert b pb pos _ | Move _ b pb pos => pb ∈ D /\ pos < deg pb /\ pb <> b | _ => True end.
  Definition sum (l : list nat) : nat := fold_right Nat.add 0 l.
  Definition holes (s : cstate) : nat := sum (map (unfilled s) D).

  Lemma sum_app l k : sum (l ++ k) = sum l + sum k.
  Proof. induction l as [|x l IH]; cbn; [done|]. unfold sum in *. lia. Qed.

  Lemma sum_shift (f f' : nat -> nat) b pb g F : pb ∈ D ->
    (forall x, x <> b -> f' x <= f x) -> f' b <= F -> pb <> b -> f' pb + g <= f pb ->
    sum (map f' D) + g <= sum (map f D) + F.
  Proof.
    intros Hin H1 H2 Hne H3.
    assert (sum (map f' D) + sum (map (fun x => if Nat.eqb x pb then g else 0) D)
      <= sum (map f D) + sum (map (fun x => if Nat.eqb x b then F else 0) D)) as Hle.
    { clear Hin. generalize D. intros l. induction l as [|x l IH]; [cbn; lia|]. cbn [map sum fold_right]. unfold sum in IH.
      assert (f' x + (if Nat.eqb x pb then g else 0) <= f x + (if Nat.eqb x b then F else 0)); [|lia].
      pose proof (H1 x) as H1x.
      destruct (Nat.eqb_spec x pb) as [E1|E1]; destruct (Nat.eqb_spec x b) as [E2|E2]; [congruence| | |];
        [rewrite E1; lia|rewrite E2; lia|specialize (H1x E2); lia]. }
    assert (g <= sum (map (fun x => if Nat.eqb x pb then g else 0) D)).
    { revert Hin. generalize D. intros l Hin. induction l as [|x l IH]; [by apply elem_of_nil in Hin|]. cbn [map sum fold_right].
      apply elem_of_cons in Hin as [->|Hin]; [rewrite Nat.eqb_refl; lia|]. specialize (IH Hin). unfold sum in IH. lia. }
    assert (sum (map (fun x => if Nat.eqb x b then F else 0) D) <= F).
    { revert DND. generalize D. intros l ND. induction ND as [|x l Hx _ IH]; [cbn; lia|]. cbn [map sum fold_right]. destruct (Nat.eqb_spec x b) as [->|]; [|exact IH].
      assert (fold_right Nat.add 0 (map (fun x => if Nat.eqb x b then F else 0) l) = 0) as ->; [|lia].
      clear -Hx. induction l as [|y l IH]; cbn; [done|]. apply not_elem_of_cons in Hx as [H1 H2].
      rewrite (proj2 (Nat.eqb_neq y b)) by done. by apply IH. }
    lia.
  Qed.

  Lemma place_inner s b : cinv N pairs s -> inner N (cs_shadow s) (place s b) /\ shadow_parent s b = Val (place s b).
  Proof.
    intros CI. destruct (shadow_parent_total N pairs N0 s b CI) as (sp & Esp & IS & [E|[E ->]]);
      unfold place; rewrite E; done.
  Qed.

  Lemma holes_step s s' b n pb pos : cinv N pairs s -> grows N (cs_shadow s) (cs_shadow s') ->
    (forall x, slot_get (cs_b2s s') x = if Nat.eqb b x then Some n else slot_get (cs_b2s s) x) ->
    pb ∈ D -> pos < deg pb -> pb <> b -> pos < length (children (sh_arena (cs_shadow s')) (place s pb)) ->
    holes s' + (pos - length (children (sh_arena (cs_shadow s)) (place s pb))) <= holes s + deg b.
  Proof.
    intros CI HG HS Hpb Hpos Hne Hlen. apply (sum_shift _ _ b pb); [done| | |done|].
    - intros x Hx. unfold unfilled. assert (place s' x = place s x) as ->.
      { unfold place. rewrite HS. by rewrite (proj2 (Nat.eqb_neq b x)) by done. }
      pose proof (HG (place s x) (proj1 (place_inner s x CI))). lia.
    - unfold unfilled. lia.
    - unfold unfilled. assert (place s' pb = place s pb) as ->.
      { unfold place. rewrite HS. by rewrite (proj2 (Nat.eqb_neq b pb)) by done. }
      pose proof (HG (place s pb) (proj1 (place_inner s pb CI))). lia.
  Qed.

  Lemma convert_op_count fut L s op s' : cinv N pairs s -> sound_op tb pairs op -> placed op ->
    (forall x, x ∈ fut -> x < N) -> (forall x, x ∈ subject op -> x ∉ fut) ->
    live (subject op ++ fut) L (cs_shadow s) ->
    convert_op tb ins s op = Val s' ->
    exists g, live fut (L + 2 + g) (cs_shadow s') /\ holes s' + g <= holes s + sum (map deg (sets op)) /\
      length (cs_out s') <= length (cs_out s) + cost op L.
  Proof.
    intros CI OK PO FN FX LV E. pose proof (ci_sh _ _ _ CI) as SI. pose proof (si_wf _ _ _ SI) as SW. pose proof (sw_wf _ SW) as W.
    pose proof (si_super _ _ _ SI) as ES. pose proof (sw_lt _ SW) as LT. rewrite ES in LT.
    destruct op as [a b ch|b pb pos k|a|a b pb pos|a b txt]; cbn [sound_op subject sets placed cost app map] in *;
      cbn [convert_op] in E; cbv zeta in E.
    - destruct (compute_path_total (cs_shadow s) a W) as (q & Eq). rewrite Eq in E. injection E as <-. exists 0.
      unfold holes, unfilled, place. cbn [emit cs_shadow cs_out cs_b2s]. rewrite app_length. cbn [length]. split; [|split; cbn; lia].
      eapply live_le; [exact LV|lia].
    - rename OK into Hb. destruct PO as (P1 & P2 & P3). destruct (place_inner s pb CI) as [IS Esp].
      rewrite Esp in E. cbn [obind] in E.
      set (d := mkTD k (t_props tb b) (t_text tb b)) in *. set (sp := place s pb) in *.
      destruct (sinv_new N N0 (cs_shadow s) d SI) as [SI1 LA1].
      destruct (new_node_full (sh_arena (cs_shadow s)) d W) as (W1 & HL & Hp & Hc & _ & HC & HP & _).
      change (new_node (sh_arena (cs_shadow s)) d) with
        (fst (new_node (sh_arena (cs_shadow s)) d), length (sh_arena (cs_shadow s))) in E.
      cbv beta iota in E.
      set (a1 := fst (new_node (sh_arena (cs_shadow s)) d)) in *. set (n := length (sh_arena (cs_shadow s))) in *.
      assert (inner N (sh_with (cs_shadow s) a1) sp) as IS1 by (by apply LA1).
      destruct (sh_insert (sh_with (cs_shadow s) a1) sp pos n) as [[sh' k']| | |] eqn:Ei; try done. cbn [obind] in E.
      destruct (sh_insert_count N (sh_with (cs_shadow s) a1) sp pos n sh' k' SI1 IS1) as (HLm & HL' & HQ & HG & HX).
      { cbn [sh_arena sh_with]. lia. } { lia. } { cbn [sh_arena sh_with]. done. }
      { cbn [sh_arena sh_with]. apply leaf_not_above; [done|done|]. destruct IS as [? _]. unfold n. lia. }
      { done. }
      cbn [sh_arena sh_with] in HLm, HL', HX. rewrite HC in HL'.
      destruct (ref_with_position sh' sp pos) as [at_| | |]; try done. cbn [obind] in E.
      match type of E with obind ?e _ = _ => destruct e as [pt| | |]; try done end. injection E as <-.
      exists (pos - length (children (sh_arena (cs_shadow s)) sp)).
      cbn [cs_shadow cs_out]. rewrite app_length. cbn [length]. split; [|split; [|lia]].
      + destruct LV as (dead & ND & HLd & HD). exists dead. split; [done|].
        assert (length (sh_arena (cs_shadow s)) = n) as En by done. rewrite En in HLd.
        split; [lia|]. intros x Hx. destruct (HD x Hx) as (G1 & G2 & G3). rewrite En in G2. split; [done|].
        split; [lia|]. intros p. destruct (HX x ltac:(lia) ltac:(lia)) as [-> | ->].
        * rewrite HP. apply G3.
        * intros [= <-] Hin. pose proof (FN _ Hin). lia.
      + cbn [sum fold_right]. rewrite Nat.add_0_r. eapply holes_step; try done; cbn [cs_shadow cs_b2s].
        intros x IX. pose proof (HG x ltac:(by apply LA1)) as HGx. cbn [sh_arena sh_with] in HGx. by rewrite HC in HGx.
    - done.
    - destruct OK as (Hp & Ha0 & Hpb). destruct PO as (P1 & P2 & P3). destruct (place_inner s pb CI) as [IS Esp].
      destruct (shadow_parent_total N pairs N0 s pb CI) as (sp' & Esp' & _ & Hsp).
      rewrite Esp in Esp'. injection Esp' as <-. rewrite Esp in E. cbn [obind] in E. set (sp := place s pb) in *.
      assert (a < N) as LaN by (by apply (PL a b)).
      assert (inner N (cs_shadow s) a) as IA by (by apply (inner_old N N0 None)).
      assert (a <> sp) as Hasp.
      { intros Ea. rewrite <- Ea in Hsp. destruct Hsp as [Hsp|[_ ?]]; [|done]. destruct (ci_real _ _ _ CI _ _ Hsp) as [_ Hq]. apply Hpb, (PF a); [|done]. by apply Hq. }
      assert (length (children (sh_arena (cs_shadow s)) a) <= L) as HCa.
      { apply (live_children (a :: fut) L); [done|done|left]. }
      unfold sh_is_ancestor at 1 in E.
      assert (forall s1, (if match is_ancestor (sh_arena (cs_shadow s)) a sp with Some x => x | None => false end
          then let! par := oget (parent (sh_arena (cs_shadow s)) a) in
               reparent_loop (rev (combine (seq 0 (length (children (sh_arena (cs_shadow s)) a)))
                                           (children (sh_arena (cs_shadow s)) a))) par
                 (pos_in (sh_arena (cs_shadow s)) par a) s
          else Val s) = Val s1 -> is_ancestor (sh_arena (cs_shadow s)) a sp <> None /\ cs_b2s s1 = cs_b2s s /\
          sinv N None (cs_shadow s1) /\ later N (cs_shadow s) (cs_shadow s1) /\ grows N (cs_shadow s) (cs_shadow s1) /\
          ~ above (sh_arena (cs_shadow s1)) a sp /\ live fut L (cs_shadow s1) /\
          length (cs_out s1) <= length (cs_out s) + L) as HS.
      { intros s1. destruct (is_ancestor_not_above (sh_arena (cs_shadow s)) a sp W Hasp) as [[-> Hna]|[-> Hab]].
        - intros [= <-]. split; [done|]. split; [done|]. split; [done|]. split; [apply later_refl|]. split; [by intros x _|].
          split; [done|]. split; [by apply (live_less [a])|lia].
        - destruct (parent (sh_arena (cs_shadow s)) a) as [par|] eqn:Epar; cbn [oget obind]; [|done].
          set (cs := children (sh_arena (cs_shadow s)) a) in *.
          assert (map snd (combine (seq 0 (length cs)) cs) = cs) as Ecs.
          { clear. generalize 0. induction cs as [|c cs IH]; intros k; [done|]. cbn. f_equal. apply IH. }
          assert (length (rev (combine (seq 0 (length cs)) cs)) = length cs) as Elen.
          { rewrite rev_length, <- (map_length snd), Ecs. done. }
          assert (forall x, x ∈ map snd (rev (combine (seq 0 (length cs)) cs)) <-> x ∈ cs) as Hmem.
          { intros x. rewrite map_rev, Ecs. rewrite !elem_of_list_In. symmetry. apply in_rev. }
          assert (forall i c, (i, c) ∈ rev (combine (seq 0 (length cs)) cs) -> parent (sh_arena (cs_shadow s)) c = Some a) as HCp.
          { intros i c Hin. apply elem_of_list_In, in_rev, elem_of_list_In, combine_elem in Hin as [_ Hc]. by apply (wf_pc _ W). }
          assert (NoDup (map snd (rev (combine (seq 0 (length cs)) cs)))) as HND.
          { rewrite map_rev, Ecs. apply NoDup_ListNoDup, NoDup_rev, NoDup_ListNoDup. apply (wf_nd _ W). }
          intros ER.
          destruct (reparent_total N a par (pos_in (sh_arena (cs_shadow s)) par a)
            (rev (combine (seq 0 (length cs)) cs)) s SI IA Ha0 Epar HCp HND) as (s1' & E' & EB & SI1 & LA1 & _ & Hch & _).
          rewrite ER in E'. injection E' as <-.
          destruct (reparent_count N a par (pos_in (sh_arena (cs_shadow s)) par a)
            (rev (combine (seq 0 (length cs)) cs)) s s1 SI IA Ha0 Epar HCp HND ER) as (RL & RO & RG & RP & RN).
          rewrite Elen in RL, RO.
          split; [done|]. split; [done|]. split; [done|]. split; [done|]. split; [done|]. split; [|split; [|lia]].
          + apply (reparented_not_above N (cs_shadow s1) a sp (length (sh_arena (cs_shadow s)))); [done|apply IS|done|].
            intros y Hy. destruct (Hch y Hy) as [[H1 H2]|?]; [|done]. exfalso. apply H2. by apply Hmem.
          + destruct LV as (dead & ND & HLd & HD).
            exists (dead ++ seq (length (sh_arena (cs_shadow s))) (length cs)). split; [|split].
            * apply NoDup_app. split; [done|]. split; [|apply NoDup_seq]. intros x Hx Hs. apply elem_of_seq in Hs.
              destruct (HD x Hx) as (_ & ? & _). lia.
            * rewrite app_length, seq_length. lia.
            * intros x Hx. apply elem_of_app in Hx as [Hx|Hx].
              -- destruct (HD x Hx) as (G1 & G2 & G3). split; [done|]. split; [lia|]. intros p. rewrite RP; [|done|].
                 ++ intros Hpx Hin. apply (G3 p Hpx). by right.
                 ++ rewrite Hmem. intros Hin. apply (wf_pc _ W) in Hin. apply (G3 a Hin). left.
              -- apply elem_of_seq in Hx. split; [lia|]. split; [lia|]. intros p. rewrite RN by lia.
                 intros [= <-]. apply FX. left. }
      destruct (is_ancestor (sh_arena (cs_shadow s)) a sp) as [anc|] eqn:Eanc; [|done].
      cbn [ofuel obind] in E.
      match type of E with obind ?e _ = _ => destruct e as [s1| | |] eqn:E1; try done end. cbn [obind] in E.
      destruct (HS s1 eq_refl) as (_ & EB & SI1 & LA1 & GR1 & NA & LV1 & HO).
      destruct (compute_path (cs_shadow s1) a) as [from| | |]; try done. cbn [obind] in E.
      destruct (sh_move (cs_shadow s1) a sp pos) as [[sh2 k2]| | |] eqn:E2; try done. cbn [obind] in E.
      destruct (ref_with_position sh2 sp pos) as [to| | |]; try done. injection E as <-.
      destruct (sh_move_count N (cs_shadow s1) a sp pos sh2 k2 SI1) as (GM & GL & GQ & GG & GX); try done; try by apply LA1.
      pose proof (GR1 sp IS) as Hsple.
      exists (pos - length (children (sh_arena (cs_shadow s)) sp)).
      cbn [cs_shadow cs_out]. rewrite app_length. cbn [length]. split; [|split; [|lia]].
      + destruct LV1 as (dead & ND & HLd & HD). exists dead. split; [done|]. split; [lia|].
        intros x Hx. destruct (HD x Hx) as (G1 & G2 & G3). split; [done|]. split; [lia|].
        intros p. destruct (GX x G2 ltac:(lia)) as [-> |(q & -> & Hq)]; [by apply G3|].
        intros [= <-] Hin. pose proof (FN _ Hin). pose proof (sw_lt _ (si_wf _ _ _ SI1)) as LT1. rewrite (si_super _ _ _ SI1) in LT1. lia.
      + cbn [sum fold_right]. rewrite Nat.add_0_r. eapply holes_step; try done; cbn [cs_shadow cs_b2s].
        * intros x IX. etransitivity; [by apply GR1|]. apply GG. by apply LA1.
        * intros x. rewrite slot_get_set, EB. done.
    - destruct (compute_path_total (cs_shadow s) a W) as (q & Eq). rewrite Eq in E. injection E as <-. exists 0.
      unfold holes, unfilled, place. cbn [emit cs_shadow cs_out cs_b2s]. rewrite app_length. cbn [length]. split; [|split; cbn; lia].
      eapply live_le; [exact LV|lia].
  Qed.

  (** All operations but deletions. *)
  Lemma convert_loop_count : forall ops L s s', cinv N pairs s -> (forall op, op ∈ ops -> sound_op tb pairs op /\ placed op) ->
    NoDup (flat_map subject ops) ->
    live (flat_map subject ops) L (cs_shadow s) ->
    convert_loop tb ins s ops = Val s' ->
    length (cs_out s') <= length (cs_out s)
      + length ops * S (L + 2 * length ops + holes s + sum (map deg (flat_map sets ops))).
  Proof.
    induction ops as [|op ops IH]; intros L s s' CI OK ND LV E; [injection E as <-; lia|].
    cbn [convert_loop flat_map] in *.
    destruct (convert_op_total N tb rb pairs ins PB N0 PL PF s op CI) as (s1 & E1 & CI1); [apply OK; left|].
    rewrite E1 in E. cbn [obind] in E. apply NoDup_app in ND as (_ & HX & ND).
    destruct (convert_op_count (flat_map subject ops) L s op s1 CI) as (g & LV1 & HH & HO); try done.
    { apply OK. left. }
    { apply OK. left. }
    { intros x Hx. apply elem_of_list_In, in_flat_map in Hx as (o & Ho & Hx).
      apply elem_of_list_In in Ho. destruct (OK o ltac:(by right)) as [SO _]. destruct o; try done.
      cbn in Hx. destruct Hx as [<-|[]]. destruct SO as [SO _]. by eapply PL. }
    pose proof (IH (L + 2 + g) s1 s' CI1 ltac:(intros o Ho; apply OK; by right) ND LV1 E) as HR.
    assert (cost op L <= S L) as HC by (destruct op; cbn; lia). cbn [length].
    rewrite map_app, sum_app. set (X := sum (map deg (flat_map sets ops))) in *. set (Y := sum (map deg (sets op))) in *.
    assert (L + 2 + g + 2 * length ops + holes s1 + X <= L + 2 * S (length ops) + holes s + (Y + X)) by lia.
    assert (length ops * S (L + 2 + g + 2 * length ops + holes s1 + X) <= length ops * S (L + 2 * S (length ops) + holes s + (Y + X))).
    { apply Nat.mul_le_mono_l. lia. }
    lia.
  Qed.

  Lemma deletes_count : forall ops s s', (forall op, op ∈ ops -> exists a, op = Delete a) ->
    convert_loop tb ins s ops = Val s' -> length (cs_out s') = length (cs_out s) + length ops.
  Proof.
    induction ops as [|op ops IH]; intros s s' HD E; [injection E as <-; cbn; lia|].
    cbn [convert_loop] in E. destruct (HD op ltac:(left)) as (a & ->). cbn [convert_op] in E. cbv zeta in E.
    destruct (compute_path _ _) as [q| | |]; try done. cbn [obind] in E.
    destruct (detach_with_placeholder _ _) as [sh| | |]; try done. cbn [obind] in E.
    rewrite (IH _ _ ltac:(intros o Ho; apply HD; by right) E). cbn [emit cs_out length]. rewrite app_length. cbn. lia.
  Qed.
End Count.
