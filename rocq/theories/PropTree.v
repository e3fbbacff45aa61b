(** Property theorems on the diff library used with its own tree type:
    C58 (building trees and comparing them), C59 (equal content). *)
From Verif Require Import Base Arena Matching Chawathe ArenaProofs ArenaOps TreeProofs MatchProofs AttrProofs DtreeProofs
  ScriptProofs SelfProofs TotalProofs CinTree CinProofs Dom HtmlDiff PropMatch.
Local Open Scope list_scope.

Section Api.
  Context {H K P T C : Type}.
  Notation ND := (node_data H K P T).
  Variables (heqb : H -> H -> bool) (keqb : K -> K -> bool) (teqb : T -> T -> bool) (sim : P -> P -> ratio).
  Variables (p_empty : P -> bool) (p_diff : P -> P -> C) (c_any : C -> bool) (c_len : C -> nat) (p_len : P -> nat).
  Notation diff_with := (diff_trees_with_matching heqb keqb teqb sim p_empty p_diff c_any c_len p_len).
  Notation diff_t := (diff_trees heqb keqb teqb sim p_empty p_diff c_any c_len p_len).

  (** [Tree::new(d0)] followed by the [calls] of [add_child]; every call names a
      parent that exists by then (id 0 is the root, call number [k] creates id [k+1]). *)
  Definition script_of (d0 : ND) (calls : list (nat * ND)) (t : tree H K P T) : Prop :=
    build_from (tree_new d0) calls = Val t /\ forall k p d, calls !! k = Some (p, d) -> p <= k.

  (** Position of call [k] among its siblings: how many earlier calls had the same parent. *)
  Definition earlier (calls : list (nat * ND)) (k p : nat) : nat :=
    length (List.filter (fun c => Nat.eqb (fst c) p) (take k calls)).

  Lemma kids_length (calls : list (nat * ND)) p : forall from, length (kids from calls p) = length (List.filter (fun c => Nat.eqb (fst c) p) calls).
  Proof.
    induction calls as [|[q d] l IH]; intros from; [done|]. cbn [kids List.filter fst]. rewrite app_length, IH.
    by destruct (Nat.eqb q p).
  Qed.
  Lemma kids_lookup (calls : list (nat * ND)) p d : forall from k, calls !! k = Some (p, d) ->
    kids from calls p !! earlier calls k p = Some (S (from + k)).
  Proof.
    induction calls as [|[q e] l IH]; intros from [|k] Hk; [done|done| |]; cbn [kids].
    - injection Hk as -> ->. rewrite Nat.eqb_refl. cbn. f_equal. lia.
    - specialize (IH (S from) k Hk). unfold earlier in *. cbn [take List.filter fst]. cbn in Hk.
      replace (from + S k) with (S from + k) by lia. destruct (Nat.eqb q p); done.
  Qed.

  Lemma script_built d0 calls t : script_of d0 calls t -> built t d0 calls.
  Proof.
    intros [E Hv]. destruct (build_from_spec calls (tree_new d0) d0 [] (built_new d0) Hv) as (t' & E' & B).
    rewrite E in E'. by injection E' as <-.
  Qed.

  (** C58.  Such calls never panic, the tree has exactly the nodes asked for, with the
      data and the parents asked for; children come in the order of the calls; the
      iterators list every node exactly once. *)
  Theorem tree_api : forall d0 calls,
    (forall k p d, calls !! k = Some (p, d) -> p <= k) ->
    exists t, script_of d0 calls t /\ node_count t = S (length calls) /\
      tree_get t 0 = Val d0 /\ tree_parent t 0 = None /\
      (forall k p d, calls !! k = Some (p, d) ->
         tree_get t (S k) = Val d /\ tree_parent t (S k) = Some p /\
         tree_children t p !! earlier calls k p = Some (S k)) /\
      (forall i, length calls < i -> tree_get t i = Panic) /\
      (forall p, child_count t p = length (List.filter (fun c => Nat.eqb (fst c) p) calls)) /\
      (forall p d, p <= length calls -> exists t', add_child t p d = Val (t', S (length calls)) /\ script_of d0 (calls ++ [(p, d)]) t') /\
      exists u, tree_dtree t = Val u /\ t_root u = 0 /\
        NoDup (t_iter u) /\ NoDup (t_post u) /\
        (forall i, i ∈ t_iter u <-> i < node_count t) /\ (forall i, i ∈ t_post u <-> i < node_count t) /\
        (forall k p d, calls !! k = Some (p, d) ->
           t_parent u (S k) = Some p /\ t_position u (S k) = earlier calls k p /\
           t_kind u (S k) = nd_kind d /\ t_hash u (S k) = nd_hash d /\ t_props u (S k) = nd_props d /\ t_text u (S k) = nd_text d).
  Proof.
    intros d0 calls Hv. destruct (build_from_spec calls (tree_new d0) d0 [] (built_new d0) Hv) as (t & E & B).
    cbn [app] in B. exists t. split; [done|].
    split; [apply B|]. split; [unfold tree_get; by rewrite (bu_data0 _ _ _ B)|]. split; [apply B|].
    assert (forall k p d, calls !! k = Some (p, d) -> children (tr_arena t) p !! earlier calls k p = Some (S k)) as Hpos.
    { intros k p d Hk. rewrite (bu_children _ _ _ B). by apply (kids_lookup calls p d 0 k). }
    split.
    { intros k p d Hk. destruct (bu_data _ _ _ B k p d Hk) as [H1 H2].
      split; [unfold tree_get; by rewrite H1|]. split; [done|]. by eapply Hpos. }
    split; [intros i Hi; unfold tree_get; destruct (data (tr_arena t) i) eqn:Ed; [|done];
      apply data_lt in Ed; rewrite (bu_len _ _ _ B) in Ed; lia|].
    split; [intros p; unfold child_count; by rewrite (bu_children _ _ _ B), kids_length|].
    split.
    { intros p d Hp. destruct (built_add t d0 calls p d B Hp) as (t' & E' & B'). exists t'. split; [done|]. split.
      - assert (forall l t1, build_from t1 (l ++ [(p, d)]) = let! t2 := build_from t1 l in let! r := add_child t2 p d in Val (fst r)) as EA.
        { clear. induction l as [|[q e] l IH]; intros t1; cbn [build_from app].
          - cbn [obind]. by destruct (add_child t1 p d) as [[t2 c]| | |].
          - destruct (add_child t1 q e) as [[t2 c]| | |]; cbn [obind fst]; [apply IH|done..]. }
        rewrite EA, E. cbn [obind]. by rewrite E'.
      - intros k q e Hk. apply lookup_app_Some in Hk as [Hk|[Hge Hk]]; [by eapply Hv|].
        destruct (k - length calls) as [|n] eqn:Ek; [|by destruct n]. injection Hk as <- <-. lia. }
    destruct (tree_exists (tr_arena t) 0 (bu_wf _ _ _ B)) as (r & Er & Ht).
    destruct (tree_dtree_spec t r (bu_wf _ _ _ B)) as (u & Eu & PR & _ & Ep & Ed).
    { rewrite (bu_root _ _ _ B), (bu_len _ _ _ B). lia. } { done. } { by rewrite (bu_root _ _ _ B). }
    exists u. split; [done|]. split; [by rewrite (pr_root _ _ PR)|].
    pose proof (built_reach t d0 calls r B Hv Ht Er) as HR. unfold node_count. rewrite (bu_len _ _ _ B).
    split; [by eapply pr_iter_nodup|].
    split; [rewrite (pr_post _ _ PR); by apply postorder_nodup, (pr_nodup _ _ PR)|].
    split; [intros i; rewrite (pr_iter _ _ PR), HR; lia|].
    split; [intros i; rewrite (pr_post _ _ PR), postorder_elem, HR; lia|].
    intros k p d Hk. destruct (bu_data _ _ _ B k p d Hk) as [H1 H2]. destruct (Ed (S k) d H1) as (D1 & D2 & D3 & D4).
    rewrite Ep, H2. split; [done|]. split; [|done].
    specialize (Hv k p d Hk). pose proof (Hpos k p d Hk) as HL.
    assert (p ∈ t_iter u) as Hin. { rewrite (pr_iter _ _ PR). apply HR. apply lookup_lt_Some in Hk. lia. }
    apply (pr_iter_subt u r PR) in Hin as (s & Hs & <-).
    rewrite (is_tree_children _ s) in HL by by eapply is_tree_subt.
    rewrite list_lookup_fmap in HL. destruct (rsub s !! earlier calls k (rid s)) as [c|] eqn:Ec; [|done]. injection HL as HL.
    rewrite <- HL. by destruct (pr_parent _ _ PR s _ c Hs Ec).
  Qed.

  (** Comparing two such trees, with any configuration and any hashes: the result is
      there; the matching is a partial bijection between the ids; every node of the
      new tree that has a parent and no partner is inserted exactly once, below its
      parent, at its position, with its kind; every node of the old tree without a
      partner is deleted exactly once; nothing else is inserted or deleted; a text is set
      exactly for the matched nodes whose new text is there and is another one. *)
  Theorem trees_compared : forall cfg d0 calls e0 calls' t u,
    script_of d0 calls t -> script_of e0 calls' u ->
    exists ops m, diff_with cfg t u = Val (ops, m) /\ diff_t cfg t u = Val ops /\ bijection m /\
      (forall a b, (a, b) ∈ m_pairs m -> a <= length calls /\ b <= length calls') /\
      (forall k p d, calls' !! k = Some (p, d) -> get_a m (S k) = None ->
         List.filter (inserts (S k)) ops = [Insert (S k) p (earlier calls' k p) (nd_kind d)]) /\
      (forall b p j kd, Insert b p j kd ∈ ops -> get_a m b = None /\ exists k d, b = S k /\ calls' !! k = Some (p, d)) /\
      (forall a, a <= length calls -> get_b m a = None -> List.filter (deletes a) ops = [Delete a]) /\
      (forall a, Delete a ∈ ops -> a <= length calls /\ get_b m a = None) /\
      (forall a b s, SetText a b s ∈ ops <-> (a, b) ∈ m_pairs m /\ exists da db,
         tree_get t a = Val da /\ tree_get u b = Val db /\ nd_text db = Some s /\
         match nd_text da with Some r => teqb r s = false | None => True end) /\
      length ops <= 3 * length (m_pairs m) + S (length calls) + S (length calls').
  Proof.
    intros cfg d0 calls e0 calls' t u St Su.
    pose proof (script_built _ _ _ St) as Bt. pose proof (script_built _ _ _ Su) as Bu.
    destruct St as [_ Vt], Su as [_ Vu].
    destruct (tree_exists (tr_arena t) 0 (bu_wf _ _ _ Bt)) as (ra & Era & Hta).
    destruct (tree_exists (tr_arena u) 0 (bu_wf _ _ _ Bu)) as (rb & Erb & Htb).
    destruct (tree_dtree_spec t ra (bu_wf _ _ _ Bt)) as (ta & Eta & PA & OA & EpA & EdA).
    { rewrite (bu_root _ _ _ Bt), (bu_len _ _ _ Bt). lia. } { done. } { by rewrite (bu_root _ _ _ Bt). }
    destruct (tree_dtree_spec u rb (bu_wf _ _ _ Bu)) as (tb & Etb & PB & OB & EpB & EdB).
    { rewrite (bu_root _ _ _ Bu), (bu_len _ _ _ Bu). lia. } { done. } { by rewrite (bu_root _ _ _ Bu). }
    pose proof (built_reach t d0 calls ra Bt Vt Hta Era) as RA. pose proof (built_reach u e0 calls' rb Bu Vu Htb Erb) as RB.
    destruct (compute_matching_total heqb keqb sim cfg ta tb ra PA) as (m & Em).
    eexists _, m. unfold diff_trees, diff_trees_with_matching. rewrite Eta, Etb. cbn [obind]. rewrite Em. cbn [obind fst].
    split; [reflexivity|]. split; [reflexivity|].
    pose proof (compute_matching_bijection _ _ _ _ _ _ _ Em) as BJ. split; [done|].
    assert (forall x, ~ inside_opaque ta ra x) as NA. { intros x (s & _ & Ho & _). by rewrite OA in Ho. }
    assert (forall x, ~ inside_opaque tb rb x) as NB. { intros x (s & _ & Ho & _). by rewrite OB in Ho. }
    split.
    { intros a b Hab. destruct (compute_matching_iter heqb keqb sim cfg ta tb ra rb PA PB m a b Em Hab) as [Ha Hb].
      rewrite (pr_iter _ _ PA) in Ha. rewrite (pr_iter _ _ PB) in Hb. by rewrite <- RA, <- RB. }
    destruct (inserts_exact teqb p_empty p_diff c_any c_len p_len ta tb rb m PB) as [I1 I2].
    { left. rewrite (pr_root _ _ PB), Erb, EpB. apply Bu. }
    destruct (deletes_exact teqb p_empty p_diff c_any c_len p_len ta tb ra m PA) as (D1 & D2 & _).
    assert (forall k p d, calls' !! k = Some (p, d) -> exists s, subt s rb /\ rid s = p /\
      map rid (rsub s) !! earlier calls' k p = Some (S k)) as HP.
    { intros k p d Hk. assert (p ∈ preorder rb) as Hin. { apply RB. specialize (Vu k p d Hk). apply lookup_lt_Some in Hk. lia. }
      apply preorder_subt in Hin as (s & Hs & Es). exists s. split; [done|]. split; [done|].
      rewrite <- (is_tree_children (tr_arena u) s) by by eapply is_tree_subt.
      rewrite Es, (bu_children _ _ _ Bu). by apply (kids_lookup calls' p d 0 k). }
    split.
    { intros k p d Hk Hm. destruct (HP k p d Hk) as (s & Hs & <- & Hl).
      rewrite (I1 (S k) s _ Hs Hl Hm (NB _)). destruct (bu_data _ _ _ Bu k _ d Hk) as [Hd _].
      by destruct (EdB _ _ Hd) as (_ & -> & _). }
    split.
    { intros b p j kd Hin. destruct (I2 b p j kd Hin) as (Hm & _ & _ & s & Hs & <- & Hl). split; [done|].
      rewrite <- (is_tree_children (tr_arena u) s) in Hl by by eapply is_tree_subt.
      apply elem_of_list_lookup_2 in Hl. pose proof (wf_child_lt _ _ _ (bu_wf _ _ _ Bu) Hl) as Hlt.
      apply (wf_pc _ (bu_wf _ _ _ Bu)) in Hl. rewrite (bu_len _ _ _ Bu) in Hlt.
      destruct b as [|k]; [by rewrite (bu_parent0 _ _ _ Bu) in Hl|].
      destruct (lookup_lt_is_Some_2 calls' k ltac:(lia)) as [[q d] Hk]. exists k, d. split; [done|].
      destruct (bu_data _ _ _ Bu k q d Hk) as [_ Hq]. rewrite Hl in Hq. by injection Hq as ->. }
    split; [intros a Ha Hm; apply D1; [by apply RA|done|apply NA]|].
    split; [intros a Ha; destruct (D2 a Ha) as (Hi & Hm & _); by rewrite <- RA|].
    split.
    { assert (forall (v : tree H K P T) d1 cs i, built v d1 cs -> i <= length cs -> exists d, data (tr_arena v) i = Some d) as HD.
      { intros v d1 cs i Bv Hi. unfold data. destruct (tr_arena v !! i) eqn:Ei; [eauto|].
        apply lookup_ge_None in Ei. rewrite (bu_len _ _ _ Bv) in Ei. lia. }
      assert (forall a b, (a, b) ∈ m_pairs m -> exists da db, data (tr_arena t) a = Some da /\ data (tr_arena u) b = Some db /\
        t_text ta a = nd_text da /\ t_text tb b = nd_text db) as HT.
      { intros a b Hab. destruct (compute_matching_iter heqb keqb sim cfg ta tb ra rb PA PB m a b Em Hab) as [Ha Hb].
        rewrite (pr_iter _ _ PA), RA in Ha. rewrite (pr_iter _ _ PB), RB in Hb.
        destruct (HD t d0 calls a Bt Ha) as (da & Hda). destruct (HD u e0 calls' b Bu Hb) as (db & Hdb).
        exists da, db. destruct (EdA a da Hda) as (_ & _ & _ & ->). by destruct (EdB b db Hdb) as (_ & _ & _ & ->). }
      assert (forall x, mem x (opaque_descendants ta) = false) as MA.
      { intros x. apply mem_false. intros Hx. apply elem_flat_map in Hx as (z & Hz & Hx). rewrite OA in Hx. by apply elem_of_nil in Hx. }
      assert (forall x, mem x (opaque_descendants tb) = false) as MB.
      { intros x. apply mem_false. intros Hx. apply elem_flat_map in Hx as (z & Hz & Hx). rewrite OB in Hx. by apply elem_of_nil in Hx. }
      intros a b s. rewrite script_eq, !elem_of_app, !elem_flat_map. split.
      - intros [(z & Hz & Hop)|[(z & Hz & Hop)|[(z & Hz & Hop)|(z & Hz & Hop)]]].
        + destruct z as [a' b']. unfold phase1 in Hop. rewrite MA, MB in Hop. cbn [orb] in Hop.
          destruct (HT a' b' Hz) as (da & db & Hda & Hdb & Eta' & Etb'). rewrite Eta', Etb' in Hop.
          apply elem_of_app in Hop as [Hop|Hop].
          * destruct (otext_eqb teqb (nd_text da) (nd_text db)) eqn:Eo; [by apply elem_of_nil in Hop|].
            destruct (nd_text db) as [s'|] eqn:Es; [|by apply elem_of_nil in Hop].
            apply elem_of_list_singleton in Hop. injection Hop as -> -> ->. split; [done|]. exists da, db.
            unfold tree_get. rewrite Hda, Hdb. do 3 (split; [done|]). destruct (nd_text da); [|done]. exact Eo.
          * repeat case_match; try by apply elem_of_nil in Hop. by apply elem_of_list_singleton in Hop.
        + by apply in_ph2 in Hop as (_ & _ & p & _ & ?).
        + by apply in_ph4 in Hop as (? & ? & ? & ? & _ & _ & _ & _ & _ & ? & _).
        + by apply in_ph5 in Hop as (_ & _ & ?).
      - intros (Hab & da & db & Hda & Hdb & Hs & Hne). left. exists (a, b). split; [done|].
        destruct (HT a b Hab) as (da' & db' & Hda' & Hdb' & Eta' & Etb'). unfold tree_get in Hda, Hdb.
        rewrite Hda' in Hda. rewrite Hdb' in Hdb. injection Hda as <-. injection Hdb as <-.
        unfold phase1. rewrite MA, MB, Eta', Etb', Hs. cbn [orb]. apply elem_of_app. left.
        assert (otext_eqb teqb (nd_text da') (Some s) = false) as ->; [|left].
        destruct (nd_text da'); [exact Hne|done]. }
    pose proof (edit_script_size teqb p_empty p_diff c_any c_len p_len ta tb ra rb m PA PB) as HS.
    assert (forall n r t0 (d1 : ND) cs (f : nat -> bool), built t0 d1 cs -> is_tree (tr_arena t0) r -> rid r = 0 -> n = length cs ->
      length (List.filter f (preorder r)) <= S n) as HF.
    { intros n r t0 d1 cs f B0 H0 H1 ->. etransitivity.
      - assert (forall l, length (List.filter f l) <= length l) as Hl; [|apply Hl].
        induction l as [|x l IH]; cbn; [lia|]. destruct (f x); cbn; lia.
      - pose proof (is_tree_size _ r (bu_wf _ _ _ B0) H0) as Hs. rewrite (bu_len _ _ _ B0), H1 in Hs. apply Hs. lia. }
    pose proof (HF _ ra t d0 calls (fun a => match get_b m a with Some _ => false | None => true end) Bt Hta Era eq_refl).
    pose proof (HF _ rb u e0 calls' (fun b => match get_a m b with Some _ => false | None => true end) Bu Htb Erb eq_refl).
    lia.
  Qed.

  (** ** C59: equal content *)

  (** A tree of data, without ids. *)
  Inductive ctree := CT (d : ND) (l : list ctree).
  Fixpoint represents (a : arena ND) (c : ctree) (i : nat) : Prop :=
    let 'CT d l := c in
    data a i = Some d /\
    (fix all (l : list ctree) (ids : list nat) : Prop :=
       match l, ids with
       | [], [] => True
       | c :: l', i :: ids' => represents a c i /\ all l' ids'
       | _, _ => False
       end) l (children a i).

  Lemma ctree_ind' (Q : ctree -> Prop) : (forall d l, (forall c, c ∈ l -> Q c) -> Q (CT d l)) -> forall c, Q c.
  Proof.
    intros Hs. fix IH 1. intros [d l]. apply Hs. induction l as [|c l IHl]; intros x Hx; [exfalso; inversion Hx|].
    apply elem_of_cons in Hx as [->|Hx]; [apply IH|by apply IHl].
  Qed.

  Lemma represents_alike (a a' : arena ND) c : forall r r', is_tree a r -> is_tree a' r' ->
    represents a c (rid r) -> represents a' c (rid r') ->
    alike (fun x y => exists d, data a x = Some d /\ data a' y = Some d) r r'.
  Proof.
    induction c as [d l IH] using ctree_ind'. intros [i rs] [j rs'] Hr Hr' [Hd Hl] [Hd' Hl'].
    cbn [rid] in *. apply is_tree_eq in Hr as [Er Hr]. apply is_tree_eq in Hr' as [Er' Hr'].
    constructor; [by exists d|]. rewrite Er in Hl. rewrite Er' in Hl'. clear Er Er' Hd Hd'.
    revert rs rs' Hr Hr' Hl Hl'. induction l as [|c l IHl]; intros [|r rs] [|r' rs'] Hr Hr' Hl Hl'; cbn in Hl, Hl'; try done.
    destruct Hl as [Hc Hl], Hl' as [Hc' Hl']. constructor.
    - apply (IH c); [left|apply Hr; left|apply Hr'; left|done|done].
    - apply IHl; [intros x Hx; apply IH; by right|intros; apply Hr; by right|intros; apply Hr'; by right|done|done].
  Qed.

  (** Two trees with the same content (ids may differ, as when the nodes were added in
      another order) need no edits, whatever the minimum height and any threshold up
      to 1: the comparison of properties must say that equal is equal. *)
  Theorem equal_trees_no_edits : forall cfg t u c,
    (forall h, heqb h h = true) -> (forall k, keqb k k = true) -> (forall s, teqb s s = true) ->
    (forall p, fst (sim p p) = snd (sim p p) /\ c_any (p_diff p p) = false /\ p_len p <= c_len (p_diff p p)) ->
    thr_num cfg <= thr_den cfg ->
    wf (tr_arena t) -> wf (tr_arena u) -> parent (tr_arena t) (tr_root t) = None -> parent (tr_arena u) (tr_root u) = None ->
    represents (tr_arena t) c (tr_root t) -> represents (tr_arena u) c (tr_root u) ->
    diff_t cfg t u = Val [].
  Proof.
    intros cfg t u c HH HK HT HP HC Wt Wu Pt Pu Ct Cu.
    destruct (tree_exists (tr_arena t) (tr_root t) Wt) as (ra & Era & Hta).
    destruct (tree_exists (tr_arena u) (tr_root u) Wu) as (rb & Erb & Htb).
    assert (forall x : tree H K P T, represents (tr_arena x) c (tr_root x) -> tr_root x < length (tr_arena x)) as Hlt.
    { intros x Hx. destruct c as [d l]. destruct Hx as [Hx _]. by eapply data_lt. }
    destruct (tree_dtree_spec t ra Wt (Hlt t Ct) Hta Era) as (ta & Eta & PA & OA & EpA & EdA).
    destruct (tree_dtree_spec u rb Wu (Hlt u Cu) Htb Erb) as (tb & Etb & PB & OB & EpB & EdB).
    set (R := fun x y => exists d, data (tr_arena t) x = Some d /\ data (tr_arena u) y = Some d).
    assert (alike R ra rb) as AL. { apply (represents_alike _ _ c); try done; by rewrite ?Era, ?Erb. }
    assert (forall x y, R x y -> t_hash ta x = t_hash tb y /\ t_kind ta x = t_kind tb y /\
      t_props ta x = t_props tb y /\ t_text ta x = t_text tb y) as RE.
    { intros x y (d & Hx & Hy). destruct (EdA x d Hx) as (-> & -> & -> & ->). by destruct (EdB y d Hy) as (-> & -> & -> & ->). }
    assert (forall x y, R x y -> heqb (t_hash ta x) (t_hash tb y) = true /\ heqb (t_hash tb y) (t_hash ta x) = true) as RH.
    { intros x y Hxy. destruct (RE x y Hxy) as (-> & _). by rewrite HH. }
    assert (forall x y, R x y -> keqb (t_kind ta x) (t_kind tb y) = true /\ keqb (t_kind tb y) (t_kind ta x) = true) as RK.
    { intros x y Hxy. destruct (RE x y Hxy) as (_ & -> & _). by rewrite HK. }
    assert (forall x y, R x y -> ge_thr cfg (sim (t_props ta x) (t_props tb y)) = true) as RS.
    { intros x y Hxy. destruct (RE x y Hxy) as (_ & _ & -> & _). unfold ge_thr. apply Nat.leb_le.
      destruct (HP (t_props tb y)) as (-> & _). nia. }
    assert (t_parent ta (rid ra) = None) as RPA by (by rewrite EpA, Era).
    assert (t_parent tb (rid rb) = None) as RPB by (by rewrite EpB, Erb).
    unfold diff_trees, diff_trees_with_matching. rewrite Eta, Etb. cbn [obind].
    rewrite (compute_equal heqb keqb sim cfg ta tb ra rb PA PB OA OB RPA RPB R RH RK RS AL). cbn [obind fst]. f_equal.
    apply (equal_script heqb keqb sim cfg ta tb ra rb PA PB OA OB RPA RPB R RH RK RS AL).
    - intros x y Hxy. destruct (RE x y Hxy) as (_ & _ & _ & ->). unfold otext_eqb. destruct (t_text tb y); [apply HT|done].
    - intros x y Hxy. destruct (RE x y Hxy) as (_ & _ & -> & _). by destruct (HP (t_props tb y)) as (_ & ?).
  Qed.

  Corollary self_no_edits : forall cfg d0 calls t,
    (forall h, heqb h h = true) -> (forall k, keqb k k = true) -> (forall s, teqb s s = true) ->
    (forall p, fst (sim p p) = snd (sim p p) /\ c_any (p_diff p p) = false /\ p_len p <= c_len (p_diff p p)) ->
    thr_num cfg <= thr_den cfg -> script_of d0 calls t -> diff_t cfg t t = Val [].
  Proof.
    intros cfg d0 calls t HH HK HT HP HC St. pose proof (script_built _ _ _ St) as B.
    assert (exists c, represents (tr_arena t) c (tr_root t)) as (c & Hc).
    { destruct (tree_exists (tr_arena t) (tr_root t) (bu_wf _ _ _ B)) as (r & Er & Hr).
      assert (tr_root t < length (tr_arena t)) as Hl by (rewrite (bu_root _ _ _ B), (bu_len _ _ _ B); lia).
      rewrite <- Er in *. clear Er. pose proof (bu_wf _ _ _ B) as W. clear -W Hr Hl.
      induction r as [i rs IH] using rose_ind'. cbn [rid] in *. apply is_tree_eq in Hr as [Er Hr].
      destruct (data (tr_arena t) i) as [d|] eqn:Ed.
      2:{ unfold data in Ed. destruct (tr_arena t !! i) eqn:Ea; [done|]. apply lookup_ge_None in Ea. lia. }
      assert (exists l, (fix all (l : list ctree) (ids : list nat) : Prop :=
         match l, ids with
         | [], [] => True
         | c :: l', i :: ids' => represents (tr_arena t) c i /\ all l' ids'
         | _, _ => False
         end) l (map rid rs)) as (l & Hall).
      { assert (forall r, r ∈ rs -> exists c, represents (tr_arena t) c (rid r)) as Hex.
        { intros r Hin. apply IH; [done|by apply Hr|]. eapply wf_child_lt; [exact W|].
          rewrite Er. by apply elem_of_list_fmap_1. }
        clear -Hex. induction rs as [|r rs IH]; [by exists []|].
        destruct (Hex r ltac:(left)) as (c & Hc). destruct IH as (l & Hl); [intros x Hx; apply Hex; by right|].
        by exists (c :: l). }
      exists (CT d l). split; [done|]. by rewrite Er. }
    eapply equal_trees_no_edits; try done; try apply B; rewrite (bu_root _ _ _ B); apply B.
  Qed.
End Api.
Print Assumptions tree_api.
Print Assumptions trees_compared.
Print Assumptions equal_trees_no_edits.
Print Assumptions self_no_edits.

(** Trees without properties ([NoProps], [SimpleTypes]) that compare hashes, kinds and
    texts by their values: no further hypothesis is needed. *)
Corollary no_props_no_edits : forall {T} (teqb : T -> T -> bool) cfg (d0 : node_data nat string unit T) calls t,
  (forall s, teqb s s = true) -> thr_num cfg <= thr_den cfg -> script_of d0 calls t ->
  diff_trees Nat.eqb String.eqb teqb no_props_sim no_props_empty no_props_diff (fun _ => false) (@length unit) no_props_len cfg t t = Val [].
Proof.
  intros T teqb cfg d0 calls t HT HC St. apply (self_no_edits Nat.eqb String.eqb teqb no_props_sim no_props_empty
    no_props_diff (fun _ => false) (@length unit) no_props_len cfg d0 calls t Nat.eqb_refl String.eqb_refl HT); [|done|done].
  intros []. cbn. split; [done|]. split; [done|apply Nat.le_refl].
Qed.
Print Assumptions no_props_no_edits.

(** ** Examples: [SimpleTypes] trees (no properties, no texts) with [u64] hashes *)

Definition sdiff : config -> tree nat string unit unit -> tree nat string unit unit -> outcome (list (edit_op string unit (list unit))) :=
  diff_trees Nat.eqb String.eqb (fun _ _ => true) no_props_sim no_props_empty no_props_diff (fun _ => false) (@length unit) no_props_len.
Definition stree (h : nat) (k : string) (calls : list (nat * (nat * string))) : tree nat string unit unit :=
  match build_from (tree_new (simple h k)) (map (fun c => (fst c, simple (fst (snd c)) (snd (snd c)))) calls) with
  | Val t => t
  | _ => tree_new (simple h k)
  end.

Example tree_api_example :
  let calls := [(0, simple 1 "node"); (1, simple 2 "leaf"); (0, simple 4 "leaf"); (1, simple 3 "leaf")]%string in
  exists t : tree nat string unit unit,
    script_of (simple 0 "root"%string) calls t /\
    tree_children t 1 = [2; 4] /\ tree_children t 0 = [1; 3] /\ earlier calls 3 1 = 1 /\
    exists u, tree_dtree t = Val u /\ t_post u = [2; 4; 1; 3; 0] /\ t_height u 0 = 2.
Proof.
  eexists. split; [split; [vm_compute; reflexivity|]|].
  { intros [|[|[|[|k]]]] p d Hk; cbn in Hk; try (injection Hk as <- <-; lia). done. }
  vm_compute. repeat split; try reflexivity. eexists. repeat split; reflexivity.
Qed.

(** The doc test of lib.rs:63-78, a leaf replaced; the same tree built in another
    order, compared with minimum height 0, 1 and 5 and thresholds 0, 1/2 and 1. *)
Example trees_compared_example :
  let a := stree 100 "root" [(0, (1, "leaf"%string))] in
  let b := stree 100 "root" [(0, (2, "leaf"%string)); (0, (3, "item"%string))] in
  sdiff default_config (stree 7 "root" [(0, (1, "leaf"%string))]) b = Val [Insert 2 0 1 "item"%string] /\
  sdiff default_config a b = Val [Insert 2 0 1 "item"%string] /\
  let t := stree 9 "r" [(0, (1, "x"%string)); (0, (2, "y"%string)); (1, (3, "z"%string))] in
  let u := stree 9 "r" [(0, (1, "x"%string)); (1, (3, "z"%string)); (0, (2, "y"%string))] in
  tree_children t 0 = [1; 2] /\ tree_children u 0 = [1; 3] /\
  map (fun cfg => sdiff cfg t u)
    [default_config; mkCfg 1 2 0; mkCfg 1 2 5; mkCfg 0 1 5; mkCfg 1 1 5] = repeat (Val []) 5.
Proof. vm_compute. repeat split; reflexivity. Qed.

(** Finding: a new root without partner is never inserted (only nodes with a parent
    are), so a script between trees with different roots does not build the new one:
    the children of the new root are moved below a node that does not exist. *)
Theorem root_never_inserted_refuted : exists t u m,
  diff_trees_with_matching Nat.eqb String.eqb (fun _ _ : unit => true) no_props_sim no_props_empty no_props_diff
    (fun _ => false) (@length unit) no_props_len default_config t u =
    Val ([Move 1 1 0 0; Delete 0], m) /\
  tree_get u 0 = Val (simple 8 "b"%string) /\ get_a m 0 = None /\ tree_children u 0 = [1] /\ get_a m 1 = Some 1.
Proof.
  exists (stree 7 "a" [(0, (1, "leaf"%string))]), (stree 8 "b" [(0, (1, "leaf"%string))]).
  eexists. vm_compute. repeat split; reflexivity.
Qed.
Print Assumptions root_never_inserted_refuted.

(** Even if the roots are alike: once all children of the root are gone, the roots are
    not matched (a root with children only matches one with children), the script
    deletes the whole tree and inserts nothing. *)
Theorem emptied_root_refuted : exists t u,
  tree_get t 0 = Val (simple 7 "list"%string) /\ tree_children t 0 = [1] /\
  tree_get u 0 = Val (simple 8 "list"%string) /\ tree_children u 0 = [] /\
  sdiff default_config t u = Val [Delete 1; Delete 0].
Proof.
  exists (stree 7 "list" [(0, (1, "item"%string))]), (stree 8 "list" []). vm_compute. repeat split; reflexivity.
Qed.
Print Assumptions emptied_root_refuted.

(** Finding: with a threshold above 1 (the field is public) a tree differs from itself. *)
Theorem threshold_above_one_refuted : exists t,
  sdiff (mkCfg 3 2 5) t t <> Val [].
Proof. exists (stree 9 "r" [(0, (1, "x"%string))]). vm_compute. discriminate. Qed.
Print Assumptions threshold_above_one_refuted.

(** Trees with texts: a list with two items, one text changed, one unchanged. *)
Definition tdiff := diff_trees Nat.eqb String.eqb String.eqb no_props_sim no_props_empty no_props_diff
    (fun _ => false) (@length unit) no_props_len.
Definition ttree (h : nat) (calls : list (nat * node_data nat string unit string)) : tree nat string unit string :=
  match build_from (tree_new (element_data h "list"%string tt)) calls with Val t => t | _ => tree_new (element_data h "list"%string tt) end.
Example text_change_example :
  tdiff default_config
    (ttree 1 [(0, text_data tt 2 "text" "one"); (0, text_data tt 3 "text" "two")]%string)
    (ttree 4 [(0, text_data tt 2 "text" "one"); (0, text_data tt 5 "text" "three")]%string) =
  Val [SetText 2 2 "three"%string].
Proof. vm_compute. reflexivity. Qed.

(** Finding: a text that is gone is not an edit: the matched node keeps its text, the
    script is empty although the trees (and their hashes) differ. *)
Theorem text_removed_refuted : exists t u : tree nat string unit string,
  tree_get t 1 = Val (text_data tt 2 "text" "one")%string /\ tree_get u 1 = Val (element_data 5 "text"%string tt) /\
  tdiff default_config t u = Val [].
Proof.
  exists (ttree 1 [(0, text_data tt 2 "text" "one")]%string), (ttree 4 [(0, element_data 5 "text"%string tt)]).
  vm_compute. repeat split; reflexivity.
Qed.
Print Assumptions text_removed_refuted.
