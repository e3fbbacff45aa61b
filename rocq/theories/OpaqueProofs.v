(** Proofs about the [OpaqueChanged] patches of a diff. *)
From stdpp Require Import list_numbers.
From Verif Require Import Base Arena Matching Chawathe Dom HtmlDiff ArenaProofs ArenaOps DomTree
  BuildProofs ShadowProofs SimProofs RoundProofs DiffTotal TreeProofs MatchProofs DtreeProofs.

Definition opaque_part (p : patch) : list (path * string) :=
  match p with POpaqueChanged q s => [(q, s)] | _ => [] end.

Section Convert.
  Context {H : Type}.
  Variables (tb : dtree H hkind attrs string) (ins : list nat).

  Definition adds_no_opaque (s s' : cstate) : Prop :=
    flat_map opaque_part (cs_out s') = flat_map opaque_part (cs_out s).

  Lemma emit_no_opaque (s : cstate) sh b2s p : opaque_part p = [] -> adds_no_opaque s (mkCS sh b2s (cs_out s ++ [p])).
  Proof. intros E. unfold adds_no_opaque. cbn [cs_out]. rewrite flat_map_app. cbn. by rewrite E, !app_nil_r. Qed.

  Lemma reparent_no_opaque par pos : forall l (s : cstate) s',
    reparent_loop l par pos s = Val s' -> adds_no_opaque s s'.
  Proof.
    induction l as [|[i c] l IH]; intros s s'; cbn [reparent_loop].
    - by intros [= <-].
    - destruct (compute_path (cs_shadow s) c) as [q| | |]; try done. cbn [obind]. cbv zeta.
      destruct (detach_with_placeholder (cs_shadow s) c) as [sh1| | |]; try done. cbn [obind].
      match goal with |- context [obind ?x _] => destruct x as [a2| | |] end; try done. cbn [obind].
      destruct (ref_with_position _ _ _) as [q'| | |]; try done. cbn [obind].
      intros E. apply IH in E. unfold adds_no_opaque in *. rewrite E.
      by apply (emit_no_opaque s (sh_with sh1 a2) (cs_b2s s) (PMove q q' None)).
  Qed.

  Lemma convert_op_no_opaque s op s' : convert_op tb ins s op = Val s' -> adds_no_opaque s s'.
  Proof.
    destruct op as [a b c|b pb pos kind|a|a b pb pos|a b tx]; cbn [convert_op]; cbv zeta.
    - destruct (compute_path _ _) as [q| | |]; try done. cbn [obind]. intros [= <-]. by apply emit_no_opaque.
    - destruct (shadow_parent s pb) as [sp| | |]; try done. cbn [obind].
      change (new_node (sh_arena (cs_shadow s)) (mkTD kind (t_props tb b) (t_text tb b))) with
        (fst (new_node (sh_arena (cs_shadow s)) (mkTD kind (t_props tb b) (t_text tb b))), length (sh_arena (cs_shadow s))).
      cbv beta iota.
      destruct (sh_insert _ _ _ _) as [[sh1 slot]| | |]; try done. cbn [obind].
      destruct (ref_with_position _ _ _) as [q| | |]; try done. cbn [obind].
      destruct kind; cbn [obind].
      + destruct (extract_children _ _ _ _) as [cs| | |]; try done. cbn [obind]. intros [= <-]. by apply emit_no_opaque.
      + intros [= <-]. by apply emit_no_opaque.
      + intros [= <-]. by apply emit_no_opaque.
    - destruct (compute_path _ _) as [q| | |]; try done. cbn [obind].
      destruct (detach_with_placeholder _ _) as [sh1| | |]; try done. cbn [obind].
      intros [= <-]. by apply emit_no_opaque.
    - destruct (shadow_parent s pb) as [sp| | |]; try done. cbn [obind].
      destruct (sh_is_ancestor _ _ _) as [anc| | |]; try done. cbn [obind].
      match goal with |- context [obind ?x _] => destruct x as [s1| | |] eqn:E1 end; try done. cbn [obind].
      destruct (compute_path _ _) as [q| | |]; try done. cbn [obind].
      destruct (sh_move _ _ _ _) as [[sh2 slot]| | |]; try done. cbn [obind].
      destruct (ref_with_position _ _ _) as [q'| | |]; try done. cbn [obind]. intros [= <-].
      assert (adds_no_opaque s s1) as A1.
      { destruct anc; [|by injection E1 as <-].
        destruct (parent (sh_arena (cs_shadow s)) a) as [par|]; [|done]. cbn [oget obind] in E1.
        by apply reparent_no_opaque in E1. }
      unfold adds_no_opaque in *. rewrite <- A1. by apply (emit_no_opaque s1).
    - destruct (compute_path _ _) as [q| | |]; try done. cbn [obind]. intros [= <-]. by apply emit_no_opaque.
  Qed.

  Lemma convert_loop_no_opaque : forall ops s s', convert_loop tb ins s ops = Val s' -> adds_no_opaque s s'.
  Proof.
    induction ops as [|op ops IH]; intros s s'; cbn [convert_loop]; [by intros [= <-]|].
    destruct (convert_op tb ins s op) as [s1| | |] eqn:E1; try done. cbn [obind]. intros E.
    apply IH in E. apply convert_op_no_opaque in E1. unfold adds_no_opaque in *. by rewrite E.
  Qed.
End Convert.

Section Diff.
  Context {H : Type}.
  Variables (heqb : H -> H -> bool) (hcomb : hkind -> option string -> list H -> H) (h0 : H).

  (** The pairs for which content is delivered. *)
  Definition changed_opaque (ta tb : dtree H hkind attrs string) (p : nat * nat) : bool :=
    t_opaque tb (snd p) && negb (heqb (t_hash ta (fst p)) (t_hash tb (snd p))).

  Lemma opaque_contents_eq new ta tb : forall pairs oc,
    opaque_contents heqb new ta tb pairs = Val oc ->
    Forall2 (fun p e => fst e = fst p /\ serialize_inner_html (doc_arena new) (snd p) = Some (snd e))
      (List.filter (changed_opaque ta tb) pairs) oc.
  Proof.
    induction pairs as [|[x y] l IH]; intros oc; cbn [opaque_contents List.filter]; [by intros [= <-]|].
    unfold changed_opaque at 1. cbn [fst snd]. destruct (t_opaque tb y); cbn [negb andb]; [|apply IH].
    destruct (heqb (t_hash ta x) (t_hash tb y)); cbn [negb]; [apply IH|].
    destruct (serialize_inner_html (doc_arena new) y) as [s|] eqn:Es; [|done]. cbn [ofuel obind].
    destruct (opaque_contents heqb new ta tb l) as [r| | |]; try done. cbn [obind]. intros [= <-].
    constructor; [done|]. by apply IH.
  Qed.

  Lemma opaque_patches_eq sh : forall oc qs, opaque_patches sh oc = Val qs ->
    Forall2 (fun e p => exists q, compute_path sh (fst e) = Val q /\ p = POpaqueChanged q (snd e)) oc qs.
  Proof.
    induction oc as [|[x s] oc IH]; intros qs; cbn [opaque_patches]; [by intros [= <-]|].
    destruct (compute_path sh x) as [q| | |] eqn:Eq; try done. cbn [obind].
    destruct (opaque_patches sh oc) as [r| | |]; try done. cbn [obind]. intros [= <-].
    constructor; [by eexists|]. by apply IH.
  Qed.

  Lemma diff_opaque_part new a ob nb t ta tb m ps :
    build_tree a ob = Val t ->
    mk_dtree hcomb h0 (fun d => d) t 0 = Val ta ->
    mk_dtree hcomb h0 tdata_of (doc_arena new) nb = Val tb ->
    html_matching heqb ta tb = Val m ->
    diff_bodies heqb hcomb h0 new a ob nb = Val ps ->
    exists ps1 ps2 sh, ps = ps1 ++ ps2 /\ shadow_new t 0 = Val sh /\
      flat_map opaque_part ps1 = [] /\
      Forall2 (fun p e => exists q s, compute_path sh (fst p) = Val q /\
                 serialize_inner_html (doc_arena new) (snd p) = Some s /\ e = POpaqueChanged q s)
        (List.filter (changed_opaque ta tb) (m_pairs m)) ps2.
  Proof.
    intros Et Ea Eb Em. unfold diff_bodies. rewrite Et. cbn [obind]. rewrite Ea. cbn [obind].
    rewrite Eb. cbn [obind]. rewrite Em. cbn [obind]. cbv zeta.
    destruct (opaque_contents heqb new ta tb (m_pairs m)) as [oc| | |] eqn:Eoc; try done. cbn [obind].
    apply opaque_contents_eq in Eoc. unfold convert_ops.
    destruct (shadow_new t 0) as [sh| | |] eqn:Esh; try done. cbn [obind].
    destruct (convert_loop _ _ _ _) as [s'| | |] eqn:El; try done. cbn [obind].
    apply convert_loop_no_opaque in El. unfold adds_no_opaque in El. cbn [cs_out flat_map] in El.
    destruct oc as [|e oc].
    - intros [= <-]. exists (cs_out s'), [], sh. rewrite app_nil_r. split; [done|]. split; [done|]. split; [done|].
      inversion Eoc; subst. constructor.
    - destruct (opaque_patches sh (e :: oc)) as [qs| | |] eqn:Eq; try done. cbn [obind]. intros [= <-].
      apply opaque_patches_eq in Eq. exists (cs_out s'), qs, sh. split; [done|]. split; [done|]. split; [done|].
      revert Eoc Eq. generalize (e :: oc), (List.filter (changed_opaque ta tb) (m_pairs m)), qs. clear.
      intros l ps qs F. revert qs. induction F as [|p e ps l [E1 E2] F IH]; intros qs G; inversion G as [|? ? ? ? (q & Hq & ->) G']; subst; [constructor|].
      constructor; [|by apply IH]. exists q, (snd e). by rewrite <- E1.
  Qed.
End Diff.

(** ** Application *)

Lemma detach_all_full : forall l (a : arena dnode), wf a ->
  wf (detach_all a l) /\ length (detach_all a l) = length a /\
  (forall j, data (detach_all a l) j = data a j) /\
  (forall j x, x ∈ children (detach_all a l) j <-> x ∈ children a j /\ x ∉ l) /\
  (forall j, (forall x, x ∈ l -> x ∉ children a j) -> children (detach_all a l) j = children a j).
Proof.
  unfold detach_all. induction l as [|x l IH]; intros a W; cbn [fold_left].
  - split; [done|]. split; [done|]. split; [done|]. split; [|done]. intros j x. rewrite elem_of_nil. tauto.
  - pose proof (detach_full a x W) as U. destruct (IH (detach a x) (ul_wf _ _ _ U)) as (W' & L & D & C & S).
    split; [done|]. split; [by rewrite L, (ul_len _ _ _ U)|].
    split; [intros j; by rewrite D, (ul_data _ _ _ U)|]. split.
    + intros j y. rewrite C, (ul_children _ _ _ U), elem_remove_id, elem_of_cons. tauto.
    + intros j Hj. assert (children (detach a x) j = children a j) as E.
      { rewrite (ul_children _ _ _ U). apply remove_id_notin. apply Hj. left. }
      rewrite S; [done|]. intros y Hy. rewrite E. apply Hj. by right.
Qed.

Lemma apply_opaque parse (a : arena dnode) sl q n s :
  wf a -> navigate_slot_path a sl q = Val n -> n < length a ->
  exists a', apply_patch parse (a, sl) (POpaqueChanged q s) = ((a', sl), Val tt) /\
    wf a' /\ length a <= length a' /\ holds_list a' (parse s) (children a' n) /\
    (forall j, j < length a -> data a' j = data a j) /\
    (forall j, j < length a -> j <> n -> children a' j = children a j).
Proof.
  intros W Hq Hn. destruct (detach_all_full (children a n) a W) as (W1 & L1 & D1 & C1 & S1).
  set (a1 := detach_all a (children a n)) in *.
  assert (children a1 n = []) as E1.
  { destruct (children a1 n) as [|x l] eqn:E; [done|]. exfalso.
    assert (x ∈ children a1 n) as Hx by (rewrite E; left). apply C1 in Hx. naive_solver. }
  destruct (clone_under_all a1 n (parse s) W1 ltac:(lia)) as (a2 & ids & E2 & CL).
  exists a2. split.
  { cbn [apply_patch]. unfold with_node. cbn [fst snd]. rewrite Hq. cbv zeta. fold a1. by rewrite E2. }
  split; [apply CL|]. split; [pose proof (cl_len _ _ _ _ _ CL); lia|]. split.
  { rewrite (cl_children _ _ _ _ _ CL), Nat.eqb_refl, E1 by lia. apply CL. }
  split.
  - intros j Hj. rewrite (cl_data _ _ _ _ _ CL) by lia. apply D1.
  - intros j Hj Hjn. rewrite (cl_children _ _ _ _ _ CL) by lia. destruct (Nat.eqb_spec j n); [done|].
    apply S1. intros x Hx Hx'. apply Hjn. apply (wf_pc a W) in Hx, Hx'. congruence.
Qed.
