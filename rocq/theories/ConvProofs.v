(** Invariants of the conversion of edit operations to patches
    (diff.rs:1537-1853) when no node is moved below itself, and the effect of
    each operation on the shadow tree and on the patched document. *)
From stdpp Require Import list_numbers relations.
From Verif Require Import Base Arena Matching Chawathe Dom HtmlDiff
  ArenaProofs ArenaOps TreeProofs DtreeProofs MatchProofs ScriptProofs DomTree ApplyProofs
  FrameProofs ShadowProofs SimProofs Applier.

(** The DOM kind of a tree node. *)
Definition otext (o : option string) : string := match o with Some s => s | None => "" end.
Definition tkind {H} (t : dtree H hkind attrs string) (i : nat) : nkind :=
  match t_kind t i with
  | KElem tag _ => NElem tag (t_props t i)
  | KText => NText (otext (t_text t i))
  | KComment => NComment (otext (t_text t i))
  end.

(** Names of the nodes alive during the edit: old nodes, and inserted new nodes. *)
Notation name := (nat + nat)%type.
Definition parents := name -> option name.
Definition edge (AP : parents) (n n' : name) : Prop := AP n = Some n'.

Definition set_parent (AP : parents) (x : nat) (n : name) : parents :=
  fun k => match k with
           | inl i => if Nat.eqb i x then Some n else AP k
           | inr _ => AP k
           end.

Section Conv.
  Context {H : Type} {OQ : opaques}.
  Variables (t : arena tdata) (ta tb : dtree H hkind attrs string) (rb : rose) (m : matching).
  Variables (va : attrs -> attrs) (okn : string -> attrs -> Prop)
    (shw : pstate -> pstate -> Prop) (ap : pstate -> patch -> presult).
  Local Notation N := (length t).
  Hypothesis PB : presents tb rb.
  Hypothesis WT : wf t.
  Hypothesis BJ : bijection m.
  Hypothesis MI : forall x y, get_b m x = Some y -> x < N /\ y ∈ t_iter tb.
  Hypothesis MR : get_b m 0 = Some (t_root tb).
  Hypothesis EB : forall y py, y ∈ t_iter tb -> y <> t_root tb -> t_parent tb y = Some py ->
    py <> t_root tb -> contk (vkind va (tkind tb py)).

  Lemma get_ab x y : get_b m x = Some y <-> get_a m y = Some x.
  Proof. rewrite (bij_fwd _ BJ), (bij_bwd _ BJ). done. Qed.

  Definition real (b2s : slots) (x : nat) : Prop := x < N \/ exists y, slot_get b2s y = Some x.

  (** The shadow node [x] is called [n]. *)
  Definition nmd (b2s : slots) (x : nat) (n : name) : Prop :=
    match n with
    | inl i => i = x /\ x < N
    | inr y => get_a m y = None /\ slot_get b2s y = Some x
    end.

  Lemma nmd_fun b2s x x' n : nmd b2s x n -> nmd b2s x' n -> x = x'.
  Proof. destruct n; intros [? ?] [? ?]; congruence. Qed.

  (** What the new node [y] becomes. *)
  Definition img (y : nat) : name := match get_a m y with Some x => inl x | None => inr y end.

  (** [del]: deleted old nodes; [pend]: new nodes whose Insert or Move is still
      to come; [out]: a node taken out and not yet put back. *)
  Record inv (s : shadow) (b2s : slots) (del pend out dom : nat -> Prop)
      (kd : nat -> nkind) (AP : parents) : Prop := {
    iv_super : sh_super s = N;
    iv_matched : forall x y, get_b m x = Some y -> slot_get b2s y = Some x;
    iv_iter : forall x y, slot_get b2s y = Some x -> y ∈ t_iter tb;
    iv_fresh : forall x y, slot_get b2s y = Some x -> get_a m y = None -> N <= x;
    iv_inj : forall x y y', slot_get b2s y = Some x -> slot_get b2s y' = Some x -> y = y';
    iv_dom : forall x, real b2s x -> dom x;
    iv_fake : forall x, dom x -> real b2s x \/ (kd x = NText "" /\ children (sh_arena s) x = []);
    iv_live : forall x, real b2s x -> ~ del x -> ~ out x -> exists p,
       parent (sh_arena s) x = Some p /\
       (parent (sh_arena s) p = Some (sh_super s) \/ (real b2s p /\ ~ del p /\
          forall nx, nmd b2s x nx -> exists np, nmd b2s p np /\ AP nx = Some np));
    iv_old : forall x p, x < N -> get_b m x = None -> ~ del x -> parent (sh_arena s) x = Some p ->
       parent t x = Some p \/ parent (sh_arena s) p = Some (sh_super s);
    iv_del : forall x, del x -> x < N /\ get_b m x = None /\ parent (sh_arena s) x = None;
    iv_placed : forall y, y ∈ t_iter tb -> y <> t_root tb -> ~ pend y ->
       exists py x xp, t_parent tb y = Some py /\ slot_get b2s py = Some xp /\
         slot_get b2s y = Some x /\ children (sh_arena s) xp !! t_position tb y = Some x;
    iv_kd : forall x y, slot_get b2s y = Some x -> y <> t_root tb -> kd x = vkind va (tkind tb y);
    iv_body : contk (kd 0)
  }.

  Definition no1 : nat -> Prop := fun _ => False.

  Section Inv.
    Variables (s : shadow) (st : pstate) (f : nat -> nat) (dom : nat -> Prop) (kd : nat -> nkind)
      (bd : nat) (lb : list nat) (b2s : slots) (del pend out : nat -> Prop) (AP : parents).
    Hypothesis SM : sim s st f dom kd bd lb.
    Hypothesis IV : inv s b2s del pend out dom kd AP.

    Let SW := sm_sh _ _ _ _ _ _ _ SM.
    Let W : wf (sh_arena s) := sw_wf _ SW.

    Lemma inv_slot_real y x : slot_get b2s y = Some x -> real b2s x /\ ~ del x.
    Proof.
      intros Hy. split; [right; eauto|]. intros Hd. destruct (iv_del _ _ _ _ _ _ _ _ IV x Hd) as (Hx & Hm & _).
      destruct (get_a m y) as [x'|] eqn:Ey.
      - apply get_ab in Ey. rewrite (iv_matched _ _ _ _ _ _ _ _ IV x' y Ey) in Hy. congruence.
      - pose proof (iv_fresh _ _ _ _ _ _ _ _ IV x y Hy Ey). lia.
    Qed.

    Lemma real_inner x : real b2s x -> x <> sh_super s /\ parent (sh_arena s) x <> Some (sh_super s).
    Proof. intros Hx. apply (sm_inner _ _ _ _ _ _ _ SM). by apply (iv_dom _ _ _ _ _ _ _ _ IV). Qed.

    Lemma nmd_exists x : real b2s x -> exists n, nmd b2s x n.
    Proof.
      intros [Hx|[y Hy]]; [by exists (inl x)|]. destruct (get_a m y) as [x'|] eqn:Ey; [|by exists (inr y)].
      apply get_ab in Ey. pose proof (iv_matched _ _ _ _ _ _ _ _ IV _ _ Ey) as E.
      assert (x' = x) as -> by congruence. exists (inl x). split; [done|]. by destruct (MI _ _ Ey).
    Qed.

    Lemma nmd_img y x : slot_get b2s y = Some x -> nmd b2s x (img y).
    Proof.
      intros Hy. unfold img. destruct (get_a m y) as [x'|] eqn:Ey; [|done].
      apply get_ab in Ey. pose proof (iv_matched _ _ _ _ _ _ _ _ IV _ _ Ey) as E.
      assert (x' = x) as -> by congruence. split; [done|]. by destruct (MI _ _ Ey).
    Qed.

    (** A real node that is not below a taken-out node has a path, and above it
        there are only real nodes, which are its ancestors in [AP]. *)
    Lemma inv_path : forall x, real b2s x -> ~ del x ->
      (forall z, out z -> ~ above (sh_arena s) z x) ->
      (exists q, spath s x q) /\
      (forall z, above (sh_arena s) z x ->
         z = sh_super s \/ parent (sh_arena s) z = Some (sh_super s) \/
         (real b2s z /\ ~ del z /\
          forall nx, nmd b2s x nx -> exists nz, nmd b2s z nz /\ rtc (edge AP) nx nz)).
    Proof.
      intros x. destruct (wf_chain _ W x) as [l Hl]. revert x Hl.
      induction l as [|p l IH]; intros x Hl Hx Hd Ho.
      { assert (~ out x) as Hno. { intros Hox. apply (Ho x Hox). by apply above_refl. }
        destruct (iv_live _ _ _ _ _ _ _ _ IV x Hx Hd Hno) as (p & Hp & _). inversion Hl. congruence. }
      assert (~ out x) as Hno. { intros Hox. apply (Ho x Hox). by apply above_refl. }
      assert (chain (sh_arena s) p l) as Hlp by (by inversion Hl).
      destruct (iv_live _ _ _ _ _ _ _ _ IV x Hx Hd Hno) as (p' & Hp & Hor).
      assert (p' = p) as -> by (inversion Hl; congruence).
      assert (forall nx, nmd b2s x nx -> exists nz, nmd b2s x nz /\ rtc (edge AP) nx nz) as Hself.
      { intros nx Hnx. exists nx. split; [done|]. constructor. }
      destruct Hor as [Hs|(Hrp & Hdp & Hap)].
      - split.
        + apply (wf_pc _ W) in Hs. apply elem_of_list_lookup in Hs as [k Hk]. exists [k].
          by eapply spath_root.
        + intros z Hz. apply above_inv in Hz as [->|(q & Hq & Hz)]; [right; right; auto|].
          assert (q = p) as -> by congruence.
          apply above_inv in Hz as [->|(q & Hq' & Hz)]; [auto|].
          assert (q = sh_super s) as -> by congruence.
          apply above_inv in Hz as [->|(q & Hq'' & Hz)]; [auto|].
          rewrite (sw_top _ SW) in Hq''. done.
      - destruct (IH p Hlp Hrp Hdp) as [(q & Hq) Hab].
        { intros z Hz Ha. apply (Ho z Hz). by eapply above_parent. }
        split.
        + apply (wf_pc _ W) in Hp as Hin. apply elem_of_list_lookup in Hin as [i Hi].
          exists (q ++ [i]). eapply spath_step; [done| |done|done].
          by apply real_inner.
        + intros z Hz. apply above_inv in Hz as [->|(q' & Hq' & Hz)]; [right; right; auto|].
          assert (q' = p) as -> by congruence.
          destruct (Hab z Hz) as [?|[?|(? & ? & Hr)]]; [auto|auto|].
          right. right. split; [done|]. split; [done|]. intros nx Hnx.
          destruct (Hap nx Hnx) as (np & Hnp & E). destruct (Hr np Hnp) as (nz & Hnz & Hrt).
          exists nz. split; [done|]. by eapply rtc_l.
    Qed.

    Lemma placed_inj y y' py xp x x' : y ∈ t_iter tb -> y <> t_root tb -> y' ∈ t_iter tb -> y' <> t_root tb ->
      t_parent tb y = Some py -> t_parent tb y' = Some py -> t_position tb y = t_position tb y' ->
      slot_get b2s py = Some xp -> slot_get b2s y = Some x -> slot_get b2s y' = Some x' -> y = y'.
    Proof.
      intros Hy Hyr Hy' Hyr' Hp Hp' Hpos _ _ _.
      destruct (pr_nonroot tb rb PB y Hy Hyr) as (q & Hq & _ & Hl).
      destruct (pr_nonroot tb rb PB y' Hy' Hyr') as (q' & Hq' & _ & Hl').
      assert (q = py) as -> by congruence. assert (q' = py) as -> by congruence. congruence.
    Qed.

    (** ** Putting a node at its place *)

    Section Put.
      Variables (y py n sp : nat).
      Hypothesis Hy : y ∈ t_iter tb.
      Hypothesis Hyr : y <> t_root tb.
      Hypothesis Hpy : t_parent tb y = Some py.
      Hypothesis Hsp : slot_get b2s py = Some sp.
      Hypothesis Hn : slot_get b2s y = Some n.
      Hypothesis Hout : forall z, out z <-> z = n.
      Hypothesis Horphan : parent (sh_arena s) n = None.
      Hypothesis Hna : ~ above (sh_arena s) n sp.
      Variable AP' : parents.
      Hypothesis HAP1 : forall nx, ~ nmd b2s n nx -> AP' nx = AP nx.
      Hypothesis HAP2 : forall nx, nmd b2s n nx -> AP' nx = Some (img py).

      Lemma put_path : exists q, spath s sp q.
      Proof.
        destruct (inv_slot_real _ _ Hsp) as [Hrs Hds].
        destruct (inv_path sp Hrs Hds) as [Hq Hab]; [|done].
        intros z Hz. by apply Hout in Hz as ->.
      Qed.

      Lemma put_others x p : x <> n ->
        (forall nx, nmd b2s x nx -> exists np, nmd b2s p np /\ AP nx = Some np) ->
        (forall nx, nmd b2s x nx -> exists np, nmd b2s p np /\ AP' nx = Some np).
      Proof.
        intros Hx Hap nx Hnx. destruct (Hap nx Hnx) as (np & Hnp & E). exists np. split; [done|].
        rewrite HAP1; [done|]. intros Hnn. by apply Hx, (nmd_fun b2s _ _ nx).
      Qed.

      Lemma put_self nx : nmd b2s n nx -> exists np, nmd b2s sp np /\ AP' nx = Some np.
      Proof. intros Hnx. exists (img py). split; [by apply nmd_img|by apply HAP2]. Qed.

      Lemma inv_took s' occ :
        took s s' sp (t_position tb y) n occ ->
        children (sh_arena s) sp !! t_position tb y = Some occ ->
        inv s' b2s del (fun z => pend z /\ z <> y) no1 dom kd AP'.
      Proof.
        intros [SW' Su' L' D' C' P'] Hocc.
        destruct (inv_slot_real _ _ Hsp) as [Hrs Hds]. destruct (inv_slot_real _ _ Hn) as [Hrn Hdn].
        destruct (real_inner sp Hrs) as [Hsps Hspn]. destruct (real_inner n Hrn) as [Hns _].
        assert (parent (sh_arena s) occ = Some sp) as Hpo.
        { apply (wf_pc _ W). by eapply elem_of_list_lookup_2. }
        pose proof (sw_lt _ SW) as HsuL.
        assert (forall x, real b2s x -> x < length (sh_arena s)) as Hlt.
        { intros x Hx. apply (iv_dom _ _ _ _ _ _ _ _ IV) in Hx. by apply (sm_lt _ _ _ _ _ _ _ SM) in Hx as [? _]. }
        assert (forall p, parent (sh_arena s) p = Some (sh_super s) -> parent (sh_arena s') p = Some (sh_super s)) as Psl.
        { intros p Hp. rewrite P'. destruct (Nat.eqb_spec p occ); [congruence|].
          destruct (Nat.eqb_spec p (length (sh_arena s))); [done|].
          destruct (Nat.eqb_spec p n); [congruence|done]. }
        assert (parent (sh_arena s') (length (sh_arena s)) = Some (sh_super s)) as Pnew.
        { rewrite P'. assert (occ < length (sh_arena s)) by (by eapply parent_lt).
          destruct (Nat.eqb_spec (length (sh_arena s)) occ); [lia|]. by rewrite Nat.eqb_refl. }
        split.
        - rewrite Su'. apply (iv_super _ _ _ _ _ _ _ _ IV).
        - apply (iv_matched _ _ _ _ _ _ _ _ IV).
        - apply (iv_iter _ _ _ _ _ _ _ _ IV).
        - apply (iv_fresh _ _ _ _ _ _ _ _ IV).
        - apply (iv_inj _ _ _ _ _ _ _ _ IV).
        - apply (iv_dom _ _ _ _ _ _ _ _ IV).
        - intros x Hx. destruct (iv_fake _ _ _ _ _ _ _ _ IV x Hx) as [?|[Hk Hc]]; [by left|].
          destruct (decide (x = sp)) as [->|]; [by left|]. right. split; [done|]. rewrite C'.
          destruct (sm_inner _ _ _ _ _ _ _ SM x Hx) as [? _].
          apply (sm_lt _ _ _ _ _ _ _ SM) in Hx as [? _].
          destruct (Nat.eqb_spec x (sh_super s)); [done|].
          destruct (Nat.eqb_spec x (length (sh_arena s))); [lia|].
          by destruct (Nat.eqb_spec x sp).
        - intros x Hx Hdx _. rewrite Su'. pose proof (Hlt x Hx).
          destruct (decide (x = occ)) as [->|Hxo].
          { exists (length (sh_arena s)). split; [|by left]. by rewrite P', Nat.eqb_refl. }
          destruct (decide (x = n)) as [->|Hxn].
          { exists sp. split.
            - rewrite P'. destruct (Nat.eqb_spec n occ); [done|].
              destruct (Nat.eqb_spec n (length (sh_arena s))); [lia|]. by rewrite Nat.eqb_refl.
            - right. split; [done|]. split; [done|]. exact put_self. }
          destruct (iv_live _ _ _ _ _ _ _ _ IV x Hx Hdx) as (p & Hp & Hor).
          { intros Ho. by apply Hout in Ho. }
          exists p. split.
          + rewrite P'. destruct (Nat.eqb_spec x occ); [done|].
            destruct (Nat.eqb_spec x (length (sh_arena s))); [lia|]. by destruct (Nat.eqb_spec x n).
          + destruct Hor as [Hs|(? & ? & Hap)]; [left; by apply Psl|right].
            split; [done|]. split; [done|]. by apply put_others.
        - intros x p Hx Hm Hdx. rewrite Su', P'. assert (real b2s x) as Hrx by (by left).
          pose proof (Hlt x Hrx).
          destruct (Nat.eqb_spec x occ); [intros [= <-]; by right|].
          destruct (Nat.eqb_spec x (length (sh_arena s))); [lia|].
          destruct (Nat.eqb_spec x n) as [->|].
          { exfalso. destruct (get_a m y) as [x'|] eqn:Ey.
            - apply get_ab in Ey. pose proof (iv_matched _ _ _ _ _ _ _ _ IV _ _ Ey). congruence.
            - pose proof (iv_fresh _ _ _ _ _ _ _ _ IV _ _ Hn Ey). lia. }
          intros Hp. destruct (iv_old _ _ _ _ _ _ _ _ IV x p Hx Hm Hdx Hp); [by left|right; by apply Psl].
        - intros x Hdx. destruct (iv_del _ _ _ _ _ _ _ _ IV x Hdx) as (Hx & Hm & Hp).
          split; [done|]. split; [done|]. rewrite P'. assert (real b2s x) as Hrx by (by left).
          pose proof (Hlt x Hrx). destruct (Nat.eqb_spec x occ); [congruence|].
          destruct (Nat.eqb_spec x (length (sh_arena s))); [lia|].
          destruct (Nat.eqb_spec x n) as [->|]; [done|done].
        - intros z Hz Hzr Hpz. destruct (decide (z = y)) as [->|Hzy].
          + exists py, n, sp. split; [done|]. split; [done|]. split; [done|].
            rewrite C'. pose proof (Hlt sp Hrs).
            destruct (Nat.eqb_spec sp (sh_super s)); [done|].
            destruct (Nat.eqb_spec sp (length (sh_arena s))); [lia|]. rewrite Nat.eqb_refl.
            apply list_lookup_insert. by eapply lookup_lt_Some.
          + destruct (iv_placed _ _ _ _ _ _ _ _ IV z Hz Hzr) as (pz & x & xp & Hpz' & Hxp & Hxz & Hl).
            { intros ?. apply Hpz. done. }
            exists pz, x, xp. split; [done|]. split; [done|]. split; [done|].
            destruct (inv_slot_real _ _ Hxp) as [Hrx _]. destruct (real_inner _ Hrx) as [Hxs _].
            pose proof (Hlt xp Hrx). rewrite C'.
            destruct (Nat.eqb_spec xp (sh_super s)); [done|].
            destruct (Nat.eqb_spec xp (length (sh_arena s))); [lia|].
            destruct (Nat.eqb_spec xp sp) as [->|]; [|done].
            pose proof (iv_inj _ _ _ _ _ _ _ _ IV _ _ _ Hxp Hsp) as ->.
            rewrite list_lookup_insert_ne; [done|]. intros Epos. apply Hzy. symmetry.
            by apply (placed_inj y z py sp n x).
        - apply (iv_kd _ _ _ _ _ _ _ _ IV).
        - apply (iv_body _ _ _ _ _ _ _ _ IV).
      Qed.

      Lemma inv_grew s' kd' dom' :
        grew s s' sp (t_position tb y) n ->
        length (children (sh_arena s) sp) <= t_position tb y ->
        (forall x, x < length (sh_arena s) -> kd' x = kd x) ->
        (forall x, length (sh_arena s) <= x < length (sh_arena s') -> kd' x = NText "") ->
        (forall x, dom' x <-> dom x \/ length (sh_arena s) <= x < length (sh_arena s')) ->
        inv s' b2s del (fun z => pend z /\ z <> y) no1 dom' kd' AP'.
      Proof.
        intros [SW' Su' L' D' C' P'] Hpos Hkd1 Hkd2 Hdom.
        destruct (inv_slot_real _ _ Hsp) as [Hrs Hds]. destruct (inv_slot_real _ _ Hn) as [Hrn Hdn].
        destruct (real_inner sp Hrs) as [Hsps Hspn]. destruct (real_inner n Hrn) as [Hns _].
        pose proof (sw_lt _ SW) as HsuL.
        assert (forall x, real b2s x -> x < length (sh_arena s)) as Hlt.
        { intros x Hx. apply (iv_dom _ _ _ _ _ _ _ _ IV) in Hx. by apply (sm_lt _ _ _ _ _ _ _ SM) in Hx as [? _]. }
        assert (forall p, p < length (sh_arena s) -> p <> n -> parent (sh_arena s') p = parent (sh_arena s) p) as Pd.
        { intros p Hp Hpn. rewrite P'. destruct (Nat.eqb_spec p n); [done|].
          destruct (Nat.leb_spec (length (sh_arena s)) p); [lia|done]. }
        assert (forall p, parent (sh_arena s) p = Some (sh_super s) -> parent (sh_arena s') p = Some (sh_super s)) as Psl.
        { intros p Hp. rewrite Pd; [done|by eapply parent_lt|congruence]. }
        split.
        - rewrite Su'. apply (iv_super _ _ _ _ _ _ _ _ IV).
        - apply (iv_matched _ _ _ _ _ _ _ _ IV).
        - apply (iv_iter _ _ _ _ _ _ _ _ IV).
        - apply (iv_fresh _ _ _ _ _ _ _ _ IV).
        - apply (iv_inj _ _ _ _ _ _ _ _ IV).
        - intros x Hx. apply Hdom. left. by apply (iv_dom _ _ _ _ _ _ _ _ IV).
        - intros x Hx. apply Hdom in Hx as [Hx|Hx].
          + destruct (iv_fake _ _ _ _ _ _ _ _ IV x Hx) as [?|[Hk Hc]]; [by left|].
            destruct (decide (x = sp)) as [->|]; [by left|]. right.
            rewrite Hkd1 by (by apply (sm_lt _ _ _ _ _ _ _ SM) in Hx as [? _]). split; [done|].
            rewrite C'. by destruct (Nat.eqb_spec x sp).
          + right. split; [by apply Hkd2|]. rewrite C'. pose proof (Hlt sp Hrs).
            destruct (Nat.eqb_spec x sp); [lia|]. apply children_ge. lia.
        - intros x Hx Hdx _. rewrite Su'. pose proof (Hlt x Hx).
          destruct (decide (x = n)) as [->|Hxn].
          { exists sp. split; [by rewrite P', Nat.eqb_refl|].
            right. split; [done|]. split; [done|]. exact put_self. }
          destruct (iv_live _ _ _ _ _ _ _ _ IV x Hx Hdx) as (p & Hp & Hor).
          { intros Ho. by apply Hout in Ho. }
          exists p. split; [by rewrite Pd|].
          destruct Hor as [Hs|(? & ? & Hap)]; [left; by apply Psl|right].
          split; [done|]. split; [done|]. by apply put_others.
        - intros x p Hx Hm Hdx. rewrite Su'. assert (real b2s x) as Hrx by (by left).
          pose proof (Hlt x Hrx).
          destruct (decide (x = n)) as [->|Hxn].
          { exfalso. destruct (get_a m y) as [x'|] eqn:Ey.
            - apply get_ab in Ey. pose proof (iv_matched _ _ _ _ _ _ _ _ IV _ _ Ey). congruence.
            - pose proof (iv_fresh _ _ _ _ _ _ _ _ IV _ _ Hn Ey). lia. }
          rewrite Pd by done.
          intros Hp. destruct (iv_old _ _ _ _ _ _ _ _ IV x p Hx Hm Hdx Hp); [by left|right; by apply Psl].
        - intros x Hdx. destruct (iv_del _ _ _ _ _ _ _ _ IV x Hdx) as (Hx & Hm & Hp).
          split; [done|]. split; [done|]. assert (real b2s x) as Hrx by (by left).
          pose proof (Hlt x Hrx). destruct (decide (x = n)) as [->|]; [done|]. by rewrite Pd.
        - intros z Hz Hzr Hpz. destruct (decide (z = y)) as [->|Hzy].
          + exists py, n, sp. split; [done|]. split; [done|]. split; [done|].
            rewrite C', Nat.eqb_refl.
            rewrite app_assoc. rewrite lookup_app_r; rewrite app_length, seq_length; [|lia].
            replace (t_position tb y - _) with 0 by lia. done.
          + destruct (iv_placed _ _ _ _ _ _ _ _ IV z Hz Hzr) as (pz & x & xp & Hpz' & Hxp & Hxz & Hl).
            { intros ?. apply Hpz. done. }
            exists pz, x, xp. split; [done|]. split; [done|]. split; [done|].
            rewrite C'. destruct (Nat.eqb_spec xp sp) as [->|]; [|done].
            rewrite lookup_app_l; [done|]. by eapply lookup_lt_Some.
        - intros x z Hz Hzr. destruct (inv_slot_real _ _ Hz) as [Hrx _].
          rewrite Hkd1 by (by apply Hlt). by apply (iv_kd _ _ _ _ _ _ _ _ IV).
        - destruct (sm_root _ _ _ _ _ _ _ SM) as (H0 & _). apply (sm_lt _ _ _ _ _ _ _ SM) in H0 as [H0 _].
          rewrite Hkd1 by done. apply (iv_body _ _ _ _ _ _ _ _ IV).
      Qed.
    End Put.
  End Inv.

  (** ** Putting a node at its place, on both sides *)

  Lemma put_step s a sl f dom kd bd lb b2s del pend out AP AP' y py n sp :
    sim s (a, sl) f dom kd bd lb -> inv s b2s del pend out dom kd AP ->
    y ∈ t_iter tb -> y <> t_root tb -> t_parent tb y = Some py ->
    slot_get b2s py = Some sp -> slot_get b2s y = Some n ->
    (forall z, out z <-> z = n) -> parent (sh_arena s) n = None -> parent a (f n) = None ->
    ~ above (sh_arena s) n sp ->
    (forall nx, ~ nmd b2s n nx -> AP' nx = AP nx) ->
    (forall nx, nmd b2s n nx -> AP' nx = Some (img py)) ->
    exists q s' slot,
      spath s sp q /\ spath s' sp q /\
      sh_insert s sp (t_position tb y) n = Val (s', slot) /\
      can_put a sl (f n) (q ++ [t_position tb y]) slot (f sp) (t_position tb y) /\
      forall a' sl', places a sl (f n) (f sp) (t_position tb y) slot a' sl' ->
      exists f' dom' kd',
      (forall x, x < length (sh_arena s) -> f' x = f x) /\
      sim s' (a', sl') f' dom' kd' bd lb /\
      inv s' b2s del (fun z => pend z /\ z <> y) no1 dom' kd' AP'.
  Proof.
    intros SM IV Hy Hyr Hpy Hsp Hn Hout Hor Hdor Hna HAP1 HAP2.
    pose proof (sm_sh _ _ _ _ _ _ _ SM) as SW. pose proof (sw_wf _ SW) as W.
    pose proof (sm_wf _ _ _ _ _ _ _ SM) as Wd. simpl in Wd.
    destruct (put_path _ _ _ _ _ _ _ _ _ _ _ _ SM IV py n sp Hsp Hout Hna) as (q & Hq).
    destruct (inv_slot_real _ _ _ _ _ _ _ _ IV _ _ Hsp) as [Hrs Hds].
    destruct (inv_slot_real _ _ _ _ _ _ _ _ IV _ _ Hn) as [Hrn Hdn].
    pose proof (iv_dom _ _ _ _ _ _ _ _ IV _ Hrs) as Hdsp. pose proof (iv_dom _ _ _ _ _ _ _ _ IV _ Hrn) as Hdnn.
    destruct (sm_inner _ _ _ _ _ _ _ SM _ Hdsp) as [Hsps Hspn].
    destruct (sm_inner _ _ _ _ _ _ _ SM _ Hdnn) as [Hns _].
    destruct (sm_lt _ _ _ _ _ _ _ SM _ Hdsp) as [HspL HspD].
    destruct (sm_lt _ _ _ _ _ _ _ SM _ Hdnn) as [HnL HnD]. simpl in HspD, HnD.
    pose proof (sim_navigate _ _ _ _ _ _ _ _ SM sp q Hq Hdsp) as Hnav.
    pose proof (slot_parent_path a sl q (t_position tb y) _ (spath_length _ _ _ Hq) Hnav) as Hgsp.
    pose proof (sim_not_above _ _ _ _ _ _ _ _ SM n sp q Hq Hdnn Hdsp Hna) as Hnad.
    assert (contk (kd sp)) as Hesp.
    { destruct (decide (py = t_root tb)) as [->|Hpr].
      - rewrite (iv_matched _ _ _ _ _ _ _ _ IV _ _ MR) in Hsp. injection Hsp as <-.
        apply (iv_body _ _ _ _ _ _ _ _ IV).
      - rewrite (iv_kd _ _ _ _ _ _ _ _ IV _ _ Hsp Hpr). by apply (EB y). }
    assert (is_cont a (f sp)) as Hies.
    { exists (kd sp). split; [by apply (sm_kind _ _ _ _ _ _ _ SM)|done]. }
    destruct (children (sh_arena s) sp !! t_position tb y) as [occ|] eqn:Eo.
    - destruct (sh_insert_took s sp (t_position tb y) n occ SW HnL Hor Hna Hsps Hns Eo) as (s' & Es' & TK).
      assert (dom occ) as Hdo.
      { eapply (sm_down _ _ _ _ _ _ _ SM); [exact Hdsp|]. by eapply elem_of_list_lookup_2. }
      pose proof (sim_child _ _ _ _ _ _ _ _ SM sp _ occ Hdsp Eo) as Hdoc.
      assert (parent (sh_arena s) occ = Some sp) as Hpo.
      { apply (wf_pc _ W). by eapply elem_of_list_lookup_2. }
      exists q, s', (Some (sh_next s)).
      split; [done|]. split; [|split; [done|split]].
      + destruct TK as [SW' Su' L' D' C' P'].
        assert (forall z, above (sh_arena s) z sp -> parent (sh_arena s') z = parent (sh_arena s) z) as Hpar.
        { intros z Hz. rewrite P'. assert (z < length (sh_arena s)) by (by eapply above_lt).
          destruct (Nat.eqb_spec z occ) as [->|].
          { exfalso. by apply (above_not_parent _ _ _ W Hpo). }
          destruct (Nat.eqb_spec z (length (sh_arena s))); [lia|].
          by destruct (Nat.eqb_spec z n) as [->|]. }
        apply (spath_keep s s' sp q SW Su'); [| | | |done].
        * intros k sl' Hk. rewrite C', Nat.eqb_refl. by apply lookup_app_l_Some.
        * intros z Hz _ _. by apply Hpar.
        * intros z Hz _ Hzz. by rewrite Hpar.
        * intros p z i Hz Hp1 Hp2 Hi. rewrite C'. destruct (Nat.eqb_spec p (sh_super s)); [done|].
          destruct (Nat.eqb_spec p (length (sh_arena s))) as [->|].
          { by rewrite (children_ge (sh_arena s)) in Hi by lia. }
          destruct (Nat.eqb_spec p sp) as [->|]; [|done]. exfalso.
          eapply above_not_parent; [exact W| |exact Hz]. apply (wf_pc _ W). by eapply elem_of_list_lookup_2.
      + do 6 (split; [done|]). split; [|by eapply lookup_lt_Some].
        rewrite (sw_next _ SW). destruct (sm_root _ _ _ _ _ _ _ SM) as (_ & _ & s0 & Hs0 & _).
        apply lookup_lt_Some in Hs0. lia.
      + intros a' sl' (d & Hd & DT & ->). assert (d = f occ) as -> by congruence.
        exists f, dom, kd. split; [done|]. split; [by eapply sim_took|].
        by apply (inv_took _ _ _ _ _ _ _ _ _ _ _ _ SM IV y py n sp Hy Hyr Hpy Hsp Hn Hout Hor AP' HAP1 HAP2 s' occ).
    - destruct (sh_insert_grew s sp (t_position tb y) n SW HnL HspL Hor Hna Hsps Hns Eo) as (s' & Es' & GR).
      apply lookup_ge_None in Eo.
      exists q, s', None.
      split; [done|]. split; [|split; [done|split]].
      + destruct GR as [SW' Su' L' D' C' P'].
        assert (forall z, above (sh_arena s) z sp -> parent (sh_arena s') z = parent (sh_arena s) z) as Hpar.
        { intros z Hz. rewrite P'. assert (z < length (sh_arena s)) by (by eapply above_lt).
          destruct (Nat.eqb_spec z n) as [->|]; [done|].
          by destruct (Nat.leb_spec (length (sh_arena s)) z); [lia|]. }
        apply (spath_keep s s' sp q SW Su'); [| | | |done].
        * intros k sl' Hk. rewrite C'. by destruct (Nat.eqb_spec (sh_super s) sp).
        * intros z Hz _ _. by apply Hpar.
        * intros z Hz _ Hzz. by rewrite Hpar.
        * intros p z i Hz Hp1 Hp2 Hi. rewrite C'.
          destruct (Nat.eqb_spec p sp) as [->|]; [|done]. exfalso.
          eapply above_not_parent; [exact W| |exact Hz]. apply (wf_pc _ W). by eapply elem_of_list_lookup_2.
      + do 6 (split; [done|]). intros TI. pose proof (sm_tight _ _ _ _ _ _ _ SM TI sp Hdsp) as Hl. simpl in Hl. lia.
      + intros a' sl' [[gk DG] ->].
        destruct (sim_grew _ _ _ _ _ _ _ _ SM gk s' a' sp (t_position tb y) n GR DG Hdnn Hdsp Hesp Hor Eo)
          as (f' & kd' & SM' & Hlow & Hnew).
        exists f', (fun x => dom x \/ length (sh_arena s) <= x < length (sh_arena s')), kd'.
        split; [intros x Hx; by apply Hlow|]. split; [done|].
        apply (inv_grew _ _ _ _ _ _ _ _ _ _ _ _ SM IV y py n sp Hyr Hpy Hsp Hn Hout Hor AP' HAP1 HAP2 s' kd'); [done|done| |done|done].
        intros x Hx. by apply Hlow.
  Qed.

  (** ** Taking a node out *)

  Lemma inv_gone s s' st f dom kd (dom' : nat -> Prop) kd' bd lb b2s del pend AP (del' out' : nat -> Prop) n :
    sim s st f dom kd bd lb -> inv s b2s del pend no1 dom kd AP ->
    dom n ->
    sh_super s' = sh_super s ->
    (forall j, j < length (sh_arena s) ->
       parent (sh_arena s') j = if Nat.eqb j n then None else parent (sh_arena s) j) ->
    (forall p i c, dom p -> children (sh_arena s) p !! i = Some c -> c <> n ->
       children (sh_arena s') p !! i = Some c) ->
    (forall x, dom x -> children (sh_arena s) x = [] -> children (sh_arena s') x = []) ->
    (forall x, dom x -> dom' x) ->
    (forall x, dom' x -> dom x \/ (kd' x = NText "" /\ children (sh_arena s') x = [])) ->
    (forall x, dom x -> kd' x = kd x) ->
    (forall x, del' x -> del x \/ (x = n /\ x < N /\ get_b m x = None)) ->
    (forall x, del x -> del' x) ->
    (forall x, ~ del' x -> ~ out' x -> x <> n) ->
    (forall x, real b2s x -> ~ del' x -> parent (sh_arena s) x = Some n -> ~ del' n) ->
    (forall y, slot_get b2s y = Some n -> pend y) ->
    inv s' b2s del' pend out' dom' kd' AP.
  Proof.
    intros SM IV Hdn Su' P' C' Cn Hd1 Hd2 Hk Hdel1 Hdel2 Hgone Hkids Hpend.
    assert (forall x, real b2s x -> x < length (sh_arena s)) as Hlt.
    { intros x Hx. apply (iv_dom _ _ _ _ _ _ _ _ IV) in Hx. by apply (sm_lt _ _ _ _ _ _ _ SM) in Hx as [? _]. }
    assert (forall p, parent (sh_arena s) p = Some (sh_super s) -> parent (sh_arena s') p = Some (sh_super s)) as Psl.
    { intros p Hp. rewrite P' by (by eapply parent_lt). destruct (Nat.eqb_spec p n) as [->|]; [|done].
      exfalso. by apply (sm_inner _ _ _ _ _ _ _ SM n Hdn). }
    split.
    - rewrite Su'. apply (iv_super _ _ _ _ _ _ _ _ IV).
    - apply (iv_matched _ _ _ _ _ _ _ _ IV).
    - apply (iv_iter _ _ _ _ _ _ _ _ IV).
    - apply (iv_fresh _ _ _ _ _ _ _ _ IV).
    - apply (iv_inj _ _ _ _ _ _ _ _ IV).
    - intros x Hx. apply Hd1. by apply (iv_dom _ _ _ _ _ _ _ _ IV).
    - intros x Hx. destruct (Hd2 x Hx) as [Hx'|?]; [|by right].
      destruct (iv_fake _ _ _ _ _ _ _ _ IV x Hx') as [?|[? ?]]; [by left|right].
      rewrite Hk by done. split; [done|]. by apply Cn.
    - intros x Hx Hdx Hox. rewrite Su'.
      destruct (iv_live _ _ _ _ _ _ _ _ IV x Hx) as (p & Hp & Hor); [by intros ?; apply Hdx, Hdel2|by intros []|].
      exists p. split.
      + rewrite P' by (by apply Hlt). destruct (Nat.eqb_spec x n); [|done]. by destruct (Hgone x Hdx Hox).
      + destruct Hor as [Hs|(Hr & Hdp & Hlt')]; [left; by apply Psl|]. right. split; [done|]. split; [|done].
        intros Hdp'. destruct (Hdel1 p Hdp') as [?|[-> _]]; [done|]. by apply (Hkids x Hx Hdx Hp).
    - intros x p Hx Hm Hdx. rewrite Su'. assert (real b2s x) as Hrx by (by left).
      rewrite P' by (by apply Hlt). destruct (Nat.eqb_spec x n); [done|]. intros Hp.
      destruct (iv_old _ _ _ _ _ _ _ _ IV x p Hx Hm) as [?|?]; [by intros ?; apply Hdx, Hdel2|done|by left|right].
      by apply Psl.
    - intros x Hdx. destruct (Hdel1 x Hdx) as [Hd|(-> & Hx & Hm)].
      + destruct (iv_del _ _ _ _ _ _ _ _ IV x Hd) as (Hx & Hm & Hp). split; [done|]. split; [done|].
        rewrite P' by (apply Hlt; by left). by destruct (Nat.eqb x n).
      + split; [done|]. split; [done|]. rewrite P' by (apply Hlt; by left). by rewrite Nat.eqb_refl.
    - intros y Hy Hyr Hpy. destruct (iv_placed _ _ _ _ _ _ _ _ IV y Hy Hyr Hpy) as (py & x & xp & H1 & H2 & H3 & H4).
      exists py, x, xp. split; [done|]. split; [done|]. split; [done|]. apply C'; [|done|].
      + apply (iv_dom _ _ _ _ _ _ _ _ IV). right. eauto.
      + intros ->. by apply Hpy, Hpend.
    - intros x y Hy Hyr. rewrite Hk; [by apply (iv_kd _ _ _ _ _ _ _ _ IV)|].
      apply (iv_dom _ _ _ _ _ _ _ _ IV). right. eauto.
    - destruct (sm_root _ _ _ _ _ _ _ SM) as (H0 & _). rewrite Hk by done. apply (iv_body _ _ _ _ _ _ _ _ IV).
  Qed.

  (** The two effects a node's removal can have on the shadow tree. *)
  Lemma replaced_gone s s' st f dom kd bd lb n d :
    sim s st f dom kd bd lb -> dom n -> replaced (sh_arena s) (sh_arena s') n d ->
    (forall j, j < length (sh_arena s) ->
       parent (sh_arena s') j = if Nat.eqb j n then None else parent (sh_arena s) j) /\
    (forall p i c, dom p -> children (sh_arena s) p !! i = Some c -> c <> n ->
       children (sh_arena s') p !! i = Some c) /\
    (forall x, dom x -> children (sh_arena s) x = [] -> children (sh_arena s') x = []).
  Proof.
    intros SM Hn RP. pose proof (sw_wf _ (sm_sh _ _ _ _ _ _ _ SM)) as W. split; [|split].
    - intros j Hj. apply RP. lia.
    - intros p i c Hp Hi Hc. destruct (decide (parent (sh_arena s) n = Some p)) as [E|E].
      + apply (wf_pc _ W) in E as Hin. apply elem_of_list_lookup in Hin as [j Hj].
        rewrite (rp_children _ _ _ _ RP p j E Hj). rewrite list_lookup_insert_ne; [done|].
        intros ->. congruence.
      + rewrite (rp_children_other _ _ _ _ RP); [done| |done].
        apply (sm_lt _ _ _ _ _ _ _ SM) in Hp as [? _]. lia.
    - intros x Hx Hc. rewrite (rp_children_other _ _ _ _ RP); [done| |].
      + apply (sm_lt _ _ _ _ _ _ _ SM) in Hx as [? _]. lia.
      + intros E. apply (wf_pc _ W) in E. rewrite Hc in E. by apply elem_of_nil in E.
  Qed.

  Lemma unlinked_gone s s' st f dom kd bd lb n sl' :
    sim s st f dom kd bd lb -> dom n -> unlinked (sh_arena s) (sh_arena s') n ->
    parent (sh_arena s) n = Some sl' -> parent (sh_arena s) sl' = Some (sh_super s) ->
    (forall j, j < length (sh_arena s) ->
       parent (sh_arena s') j = if Nat.eqb j n then None else parent (sh_arena s) j) /\
    (forall p i c, dom p -> children (sh_arena s) p !! i = Some c -> c <> n ->
       children (sh_arena s') p !! i = Some c) /\
    (forall x, dom x -> children (sh_arena s) x = [] -> children (sh_arena s') x = []).
  Proof.
    intros SM Hn UL Hp Hs. pose proof (sw_wf _ (sm_sh _ _ _ _ _ _ _ SM)) as W. split; [|split].
    - intros j Hj. apply UL.
    - intros p i c Hdp Hi Hc. rewrite (ul_children _ _ _ UL), remove_id_notin; [done|].
      intros Hin. apply (wf_pc _ W) in Hin. assert (p = sl') as -> by congruence.
      by apply (sm_inner _ _ _ _ _ _ _ SM) in Hdp as [_ ?].
    - intros x Hx Hc. by rewrite (ul_children _ _ _ UL), Hc.
  Qed.

  Lemma slot_get_set b2s k v j :
    slot_get (slot_set b2s k v) j = if Nat.eqb k j then Some v else slot_get b2s j.
  Proof. unfold slot_get, slot_set. simpl. by destruct (Nat.eqb k j). Qed.

  Lemma inv_ext s b2s b2s' del (pend pend' : nat -> Prop) out dom kd AP :
    (forall k, slot_get b2s' k = slot_get b2s k) -> (forall z, pend z -> pend' z) ->
    inv s b2s del pend out dom kd AP -> inv s b2s' del pend' out dom kd AP.
  Proof.
    intros E Ep IV. assert (forall x, real b2s' x <-> real b2s x) as Er.
    { intros x. unfold real. split; (intros [?|[y Hy]]; [by left|right; exists y]); [by rewrite <- E|by rewrite E]. }
    assert (forall x n, nmd b2s' x n <-> nmd b2s x n) as En.
    { intros x [i|y]; cbn; [done|]. by rewrite E. }
    destruct IV. split; try done.
    - intros x y Hm. rewrite E. eauto.
    - intros x y. rewrite E. eauto.
    - intros x y. rewrite E. eauto.
    - intros x y y'. rewrite !E. eauto.
    - intros x. rewrite Er. eauto.
    - intros x Hx. rewrite Er. eauto.
    - intros x. rewrite Er. intros Hx Hd Ho. destruct (iv_live0 x Hx Hd Ho) as (p & ? & Hp). exists p. rewrite Er.
      split; [done|]. destruct Hp as [?|(? & ? & Hap)]; [by left|right]. split; [done|]. split; [done|].
      intros nx. rewrite En. intros Hnx. destruct (Hap nx Hnx) as (np & ? & ?). exists np. by rewrite En.
    - intros y Hy Hyr Hn. destruct (iv_placed0 y Hy Hyr) as (py & x & xp & ?); [by auto|].
      exists py, x, xp. by rewrite !E.
    - intros x y. rewrite E. eauto.
  Qed.

  (** ** The operations *)

  (** [f0] says which DOM node each node of the old tree stands for; the
      simulation never changes its mind about those.  New nodes without partner
      get DOM nodes beyond the first [n0]. *)
  Variables (f0 : nat -> nat) (n0 : nat).

  Definition firm (f : nat -> nat) (b2s : slots) (st : pstate) : Prop :=
    (forall x, x < N -> f x = f0 x) /\ n0 <= length (fst st) /\
    (forall y x, get_a m y = None -> slot_get b2s y = Some x -> n0 <= f x).

  Lemma places_len a sl n p pos slot a' sl' : places a sl n p pos slot a' sl' -> length a <= length a'.
  Proof.
    destruct slot as [k|].
    - intros (d & _ & DT & _). rewrite (dt_len _ _ _ _ _ _ DT). lia.
    - intros [[k DG] _]. rewrite (dg_len _ _ _ _ _ _ DG). lia.
  Qed.

  Definition joint (AP : parents) (s : shadow) (st : pstate) (b2s : slots) (del pend : nat -> Prop)
      (bd : nat) (lb : list nat) : Prop :=
    exists st0, shw st st0 /\
    exists f dom kd, firm f b2s st0 /\
      sim s st0 f dom kd bd lb /\ inv s b2s del pend no1 dom kd AP.

  Lemma joint_weaken AP s st b2s del (pend pend' : nat -> Prop) bd lb :
    (forall z, pend z -> pend' z) -> joint AP s st b2s del pend bd lb -> joint AP s st b2s del pend' bd lb.
  Proof.
    intros Hw (st0 & SH & f & dom & kd & FX & SM & IV). exists st0. split; [done|]. exists f, dom, kd.
    split; [done|]. split; [done|]. by eapply inv_ext.
  Qed.

  Lemma ref_of_spath s sp q pos : shwf s -> spath s sp q -> ref_with_position s sp pos = Val (q ++ [pos]).
  Proof. intros SW Hq. unfold ref_with_position. by rewrite (spath_compute s sp q SW Hq). Qed.

  Lemma extract_children_skip fuel skip y :
    (forall c, c ∈ t_children tb y -> skip c = true) -> extract_children (S fuel) tb skip y = Val [].
  Proof.
    intros Hs. simpl. revert Hs. generalize (t_children tb y). induction l as [|c l IH]; intros Hs; [done|].
    rewrite (Hs c) by (by left). apply IH. intros c' Hc'. apply Hs. by right.
  Qed.

  Lemma hits_other q : q <> [0] ->
    hits_body (PRemove q) = false /\ forall to slot, hits_body (PMove q to slot) = false.
  Proof. intros Hq. destruct q as [|[|k] [|j q]]; done. Qed.

  Lemma sim_parent_elem s a sl f dom kd bd lb x p :
    sim s (a, sl) f dom kd bd lb -> parent (sh_arena s) x = Some p -> dom p -> contk (kd p).
  Proof.
    intros SM Hp Hdp. assert (contk (kd p) \/ ~ contk (kd p)) as [|He]
      by (destruct (kd p) as [|g l| |]; simpl; [tauto|destruct (opq l); auto|tauto|tauto]); [done|exfalso].
    pose proof (sw_wf _ (sm_sh _ _ _ _ _ _ _ SM)) as W.
    apply (wf_pc _ W) in Hp. destruct (sm_ch _ _ _ _ _ _ _ SM p Hdp) as (E & HE & _).
    rewrite (sm_leaf _ _ _ _ _ _ _ SM p Hdp He) in HE. symmetry in HE.
    apply app_eq_nil in HE as [HE _]. apply map_eq_nil in HE. rewrite HE in Hp. by apply elem_of_nil in Hp.
  Qed.

  Lemma path_not_body s a sl f dom kd bd lb x q :
    sim s (a, sl) f dom kd bd lb -> dom x -> spath s x q -> x <> 0 -> q <> [0].
  Proof.
    intros SM Hx Hq H0 ->.
    destruct (spath_dom _ _ _ _ _ _ _ _ SM x _ Hq Hx) as [(sl' & k & Ek & Hp & Hk)|(p & q' & i & Eq & _ & _ & _ & Hq')].
    - injection Ek as <-. apply H0. by eapply (sim_slot0 _ _ _ _ _ _ _ _ SM).
    - apply spath_length in Hq'. destruct q' as [|? [|? ?]]; done.
  Qed.

  Hypothesis AO : applier va okn shw ap.
  Hypothesis OKB : forall y, y ∈ t_iter tb -> y <> t_root tb -> okk okn (tkind tb y).

  Lemma insert_step AP ins cs st del pend bd lb y py sp :
    (forall y py, get_a m y = None -> t_parent tb y = Some py -> AP (inr y) = Some (img py)) ->
    joint AP (cs_shadow cs) st (cs_b2s cs) del pend bd lb ->
    y ∈ t_iter tb -> y <> t_root tb -> get_a m y = None -> slot_get (cs_b2s cs) y = None ->
    t_parent tb y = Some py -> slot_get (cs_b2s cs) py = Some sp -> pend y ->
    (forall c, c ∈ t_children tb y -> slot_get (cs_b2s cs) c <> None \/ c ∈ ins) ->
    exists cs' p st',
      convert_op tb ins cs (Insert y py (t_position tb y) (t_kind tb y)) = Val cs' /\
      cs_out cs' = cs_out cs ++ [p] /\ ap st p = (st', Val tt) /\ hits_body p = false /\
      cs_b2s cs' = slot_set (cs_b2s cs) y (length (sh_arena (cs_shadow cs))) /\
      joint AP (cs_shadow cs') st' (cs_b2s cs') del (fun z => pend z /\ z <> y) bd lb.
  Proof.
    destruct cs as [s b2s outp]. cbn [cs_shadow cs_b2s cs_out].
    intros HAP ([a sl] & SH & f & dom & kd & FX & SM & IV) Hy Hyr Hun Hb Hpy Hsp Hpend Hch.
    set (L := length (sh_arena s)). set (b2s' := slot_set b2s y L).
    set (ds := mkTD (t_kind tb y) (t_props tb y) (t_text tb y)).
    pose proof (sm_sh _ _ _ _ _ _ _ SM) as SW. pose proof (sw_wf _ SW) as W.
    pose proof (sm_wf _ _ _ _ _ _ _ SM) as Wd. simpl in Wd.
    destruct (ap_insert _ _ _ _ AO st a sl (tkind tb y) SH Wd (OKB y Hy Hyr)) as (dd & Hdd & Hput).
    pose proof (sim_new _ _ _ _ _ _ _ _ SM ds dd _ Hdd) as SM1.
    destruct (new_node_full (sh_arena s) ds W) as (W1 & L1 & P1n & C1n & D1n & C1 & P1 & D1).
    destruct (new_node_full a dd Wd) as (Wd1 & Ld1 & Pd1n & Cd1n & Dd1n & Cd1 & Pd1 & Dd1).
    set (s1 := sh_with s (fst (new_node (sh_arena s) ds))) in *.
    assert (slot_get b2s' y = Some L) as Hy'. { unfold b2s'. by rewrite slot_get_set, Nat.eqb_refl. }
    assert (forall z, z <> y -> slot_get b2s' z = slot_get b2s z) as Hz'.
    { intros z Hz. unfold b2s'. rewrite slot_get_set. by destruct (Nat.eqb_spec y z). }
    assert (forall x, real b2s x -> x < L) as Hlt.
    { intros x Hx. apply (iv_dom _ _ _ _ _ _ _ _ IV) in Hx. by apply (sm_lt _ _ _ _ _ _ _ SM) in Hx as [? _]. }
    assert (forall z x, slot_get b2s z = Some x -> x < L) as Hlt2.
    { intros z x Hx. apply Hlt. right. eauto. }
    assert (forall x, real b2s' x <-> real b2s x \/ x = L) as Hreal.
    { intros x. split.
      - intros [?|[z Hz]]; [by left; left|]. destruct (decide (z = y)) as [->|Hne].
        + right. congruence.
        + left. right. exists z. by rewrite <- Hz'.
      - intros [[?|[z Hz]]| ->]; [by left| |by right; exists y].
        right. exists z. rewrite Hz'; [done|]. congruence. }
    assert (N <= L) as HNL.
    { destruct (Nat.le_gt_cases N L); [done|]. assert (real b2s L) as Hr by (by left). apply Hlt in Hr. lia. }
    assert (inv s1 b2s' del pend (fun z => z = L)
              (fun x => dom x \/ x = L) (fun x => if Nat.eqb x L then vkind va (tkind tb y) else kd x) AP) as IV1.
    { split.
      - apply (iv_super _ _ _ _ _ _ _ _ IV).
      - intros x z Hm. rewrite Hz'; [by apply (iv_matched _ _ _ _ _ _ _ _ IV)|].
        intros ->. apply get_ab in Hm. congruence.
      - intros x z. destruct (decide (z = y)) as [->|Hne]; [done|]. rewrite Hz' by done. apply (iv_iter _ _ _ _ _ _ _ _ IV).
      - intros x z. destruct (decide (z = y)) as [->|Hne]; [intros Hx _; assert (x = L) by congruence; lia|].
        rewrite Hz' by done. apply (iv_fresh _ _ _ _ _ _ _ _ IV).
      - intros x z z' H1 H2. destruct (decide (z = y)) as [->|Hne]; destruct (decide (z' = y)) as [->|Hne']; [done| | |].
        + rewrite Hz' in H2 by done. apply Hlt2 in H2. assert (x = L) by congruence. lia.
        + rewrite Hz' in H1 by done. apply Hlt2 in H1. assert (x = L) by congruence. lia.
        + rewrite Hz' in H1, H2 by done. by eapply (iv_inj _ _ _ _ _ _ _ _ IV).
      - intros x Hx. apply Hreal in Hx as [Hx| ->]; [left; by apply (iv_dom _ _ _ _ _ _ _ _ IV)|by right].
      - intros x [Hx| ->]; [|left; apply Hreal; by right].
        destruct (iv_fake _ _ _ _ _ _ _ _ IV x Hx) as [?|[? ?]]; [left; apply Hreal; by left|right].
        apply (sm_lt _ _ _ _ _ _ _ SM) in Hx as [? _].
        destruct (Nat.eqb_spec x L); [unfold L in *; lia|]. split; [done|]. cbn [s1 sh_with sh_arena]. by rewrite C1.
      - intros x Hx Hd Ho. apply Hreal in Hx as [Hx| ->]; [|done].
        destruct (iv_live _ _ _ _ _ _ _ _ IV x Hx Hd) as (p & Hp & Hor); [by intros []|].
        exists p. cbn [s1 sh_with sh_arena sh_super]. rewrite !P1. split; [done|].
        destruct Hor as [?|(Hr & ? & Hap)]; [by left|right]. split; [apply Hreal; by left|]. split; [done|].
        intros nx Hnx. destruct (Hap nx) as (np & Hnp & E).
        { destruct nx as [i|z]; [done|]. destruct Hnx as [Hu Hz]. split; [done|].
          destruct (decide (z = y)) as [->|Hne]; [|by rewrite <- Hz'].
          exfalso. pose proof (Hlt _ Hx). assert (x = L) by congruence. lia. }
        exists np. split; [|done]. destruct np as [i|z]; [done|]. destruct Hnp as [Hu Hz]. split; [done|].
        rewrite Hz'; [done|]. congruence.
      - intros x p. cbn [s1 sh_with sh_arena sh_super]. rewrite !P1. apply (iv_old _ _ _ _ _ _ _ _ IV).
      - intros x. cbn [s1 sh_with sh_arena sh_super]. rewrite !P1. apply (iv_del _ _ _ _ _ _ _ _ IV).
      - intros z Hz Hzr Hzp. destruct (iv_placed _ _ _ _ _ _ _ _ IV z Hz Hzr Hzp) as (pz & x & xp & H1 & H2 & H3 & H4).
        exists pz, x, xp. cbn [s1 sh_with sh_arena]. rewrite !Hz', !C1 by congruence. done.
      - intros x z Hz Hzr. destruct (decide (z = y)) as [->|Hne].
        + assert (x = L) as -> by congruence. by rewrite Nat.eqb_refl.
        + rewrite Hz' in Hz by done. pose proof (Hlt2 _ _ Hz). destruct (Nat.eqb_spec x L); [lia|].
          by apply (iv_kd _ _ _ _ _ _ _ _ IV).
      - destruct (sm_root _ _ _ _ _ _ _ SM) as (H0 & _). apply (sm_lt _ _ _ _ _ _ _ SM) in H0 as [H0 _]. fold L in H0.
        destruct (Nat.eqb_spec 0 L); [lia|]. apply (iv_body _ _ _ _ _ _ _ _ IV). }
    assert (py <> y) as Hpyy by congruence.
    destruct (put_step s1 (fst (new_node a dd)) sl
                (fun x => if Nat.eqb x (length (sh_arena s)) then length a else f x)
                (fun x => dom x \/ x = L) _ bd lb b2s' del pend (fun z => z = L) AP AP y py L sp SM1 IV1 Hy Hyr Hpy)
      as (q & s' & slot & Hq & Hq' & Hins & Hcan & Hafter).
    { by rewrite Hz'. } { done. } { done. } { done. }
    { fold L. by rewrite Nat.eqb_refl. }
    { apply leaf_not_above; [done| |].
      - exact C1n.
      - pose proof (Hlt2 _ _ Hsp). unfold L in *. lia. }
    { done. }
    { intros [i|z] [E1 E2]; [subst; lia|]. assert (z = y) as ->; [|by apply HAP].
      apply (iv_inj _ _ _ _ _ _ _ _ IV1 L); done. }
    fold L in Hcan, Hafter. rewrite Nat.eqb_refl in Hcan, Hafter.
    destruct (Hput _ _ _ _ Hcan) as (st' & a' & sl' & Happ & SH' & Hpl).
    destruct (Hafter _ _ Hpl) as (f' & dom' & kd' & FX' & SM' & IV').
    pose proof (sm_sh _ _ _ _ _ _ _ SM') as SW'.
    set (pt := mk_insert (tkind tb y) (q ++ [t_position tb y]) slot).
    exists (mkCS s' b2s' (outp ++ [pt])), pt, st'. split; [|split; [done|split; [|split; [|split; [done|]]]]].
    - unfold convert_op, shadow_parent. cbn [cs_shadow cs_b2s cs_out]. rewrite Hsp. cbn [obind].
      change (new_node (sh_arena s) (mkTD (t_kind tb y) (t_props tb y) (t_text tb y)))
        with (fst (new_node (sh_arena s) ds), L). cbv beta iota. fold s1. rewrite Hins. cbn [obind].
      rewrite (ref_of_spath s' sp q _ SW' Hq'). cbn [obind]. fold b2s'. unfold pt, tkind.
      destruct (t_kind tb y) as [tag ns| |]; cbn [obind]; [|done|done].
      rewrite extract_children_skip; [done|].
      intros c Hc. destruct (Hch c Hc) as [Hc'|Hc'].
      + assert (slot_get b2s' c <> None) as Hc''.
        { destruct (decide (c = y)) as [->|]; [by rewrite Hy'|by rewrite Hz']. }
        by destruct (slot_get b2s' c).
      + destruct (slot_get b2s' c); [done|]. by apply mem_true.
    - exact Happ.
    - unfold pt, tkind. by destruct (t_kind tb y).
    - exists (a', sl'). split; [done|]. exists f', dom', kd'. split; [|done].
      assert (forall x, x < L -> f' x = f x) as FX1.
      { intros x Hx. rewrite FX' by (cbn [s1 sh_with sh_arena]; unfold L in *; lia). cbv beta.
        destruct (Nat.eqb_spec x L); [lia|done]. }
      destruct FX as (F1 & F2 & F3). cbn [fst] in F2. pose proof (places_len _ _ _ _ _ _ _ _ Hpl) as Hl1.
      split; [|split].
      + intros x Hx. rewrite FX1 by lia. by apply F1.
      + cbn [fst]. lia.
      + intros z x Hz Hzx. destruct (decide (z = y)) as [->|Hne].
        * cbn [cs_b2s] in Hzx. assert (x = L) as -> by congruence. rewrite FX' by (cbn [s1 sh_with sh_arena]; unfold L in *; lia).
          by rewrite Nat.eqb_refl.
        * cbn [cs_b2s] in Hzx. rewrite Hz' in Hzx by done. rewrite FX1 by (by eapply Hlt2). by eapply F3.
  Qed.

  Lemma not_above_ancestor s n p : wf (sh_arena s) -> ~ above (sh_arena s) n p -> sh_is_ancestor s n p = Val false.
  Proof.
    intros W Hn. unfold sh_is_ancestor. destruct (wf_chain _ W p) as [l Hl].
    destruct (not_above_chain _ _ _ _ Hn Hl) as [_ Hnl]. by rewrite (is_ancestor_false _ _ _ _ W Hl Hnl).
  Qed.

  Lemma above_gone s s1 x sp : wf (sh_arena s) -> sp < length (sh_arena s) ->
    (forall j, j < length (sh_arena s) ->
       parent (sh_arena s1) j = if Nat.eqb j x then None else parent (sh_arena s) j) ->
    ~ above (sh_arena s) x sp -> ~ above (sh_arena s1) x sp.
  Proof.
    intros W Hlt G Hn (l & Hl & Hin). revert Hlt Hn Hin. induction Hl as [i Hi|i p l Hi Hl IH]; intros Hlt Hn Hin.
    - destruct Hin as [->|Hin]; [by apply Hn, above_refl|by apply elem_of_nil in Hin].
    - rewrite G in Hi by done. destruct (Nat.eqb_spec i x) as [->|Hne]; [done|].
      destruct Hin as [->|Hin]; [done|]. apply elem_of_cons in Hin.
      apply IH; [by eapply wf_parent_lt| |done]. intros Ha. apply Hn. by eapply above_parent.
  Qed.

  Lemma move_step AP ins cs st del pend bd lb x y py sp :
    joint AP (cs_shadow cs) st (cs_b2s cs) del pend bd lb ->
    get_b m x = Some y -> y <> t_root tb ->
    t_parent tb y = Some py -> slot_get (cs_b2s cs) py = Some sp -> pend y ->
    ~ rtc (edge AP) (img py) (inl x) ->
    exists cs' p st',
      convert_op tb ins cs (Move x y py (t_position tb y)) = Val cs' /\
      cs_out cs' = cs_out cs ++ [p] /\ ap st p = (st', Val tt) /\ hits_body p = false /\
      (forall k, slot_get (cs_b2s cs') k = slot_get (cs_b2s cs) k) /\
      joint (set_parent AP x (img py)) (cs_shadow cs') st' (cs_b2s cs') del (fun z => pend z /\ z <> y) bd lb.
  Proof.
    destruct cs as [s b2s outp]. cbn [cs_shadow cs_b2s cs_out].
    intros ([a sl] & SH & f & dom & kd & FX & SM & IV) Hm Hyr Hpy Hsp Hpend Hsafe.
    destruct (MI x y Hm) as [HxN Hy].
    pose proof (iv_matched _ _ _ _ _ _ _ _ IV _ _ Hm) as Hxy.
    assert (x <> 0) as Hx0. { intros ->. congruence. }
    pose proof (sm_sh _ _ _ _ _ _ _ SM) as SW. pose proof (sw_wf _ SW) as W.
    pose proof (sm_wf _ _ _ _ _ _ _ SM) as Wd. simpl in Wd.
    destruct (inv_slot_real _ _ _ _ _ _ _ _ IV _ _ Hxy) as [Hrx Hdx].
    destruct (inv_slot_real _ _ _ _ _ _ _ _ IV _ _ Hsp) as [Hrs Hds].
    pose proof (iv_dom _ _ _ _ _ _ _ _ IV _ Hrx) as Hdomx. pose proof (iv_dom _ _ _ _ _ _ _ _ IV _ Hrs) as Hdomsp.
    destruct (sm_lt _ _ _ _ _ _ _ SM _ Hdomx) as [HxL HxD]. simpl in HxD.
    destruct (sm_lt _ _ _ _ _ _ _ SM _ Hdomsp) as [HspL HspD].
    destruct (sm_inner _ _ _ _ _ _ _ SM _ Hdomx) as [Hxs Hxs'].
    destruct (inv_path _ _ _ _ _ _ _ _ _ _ _ _ SM IV x Hrx Hdx) as [(qx & Hqx) _]; [by intros z []|].
    destruct (inv_path _ _ _ _ _ _ _ _ _ _ _ _ SM IV sp Hrs Hds) as [_ Habsp]; [by intros z []|].
    assert (~ above (sh_arena s) x sp) as Hna.
    { intros Ha. destruct (Habsp x Ha) as [?|[?|(_ & _ & Hrt)]]; [done|done|].
      destruct (Hrt (img py)) as (nz & Hnz & Hr). { by apply (nmd_img s dom kd b2s del pend no1 AP IV). }
      assert (nz = inl x) as ->; [|done].
      destruct nz as [i|z]; [by destruct Hnz as [-> _]|]. destruct Hnz as [Hu Hz].
      assert (z = y) as -> by (by apply (iv_inj _ _ _ _ _ _ _ _ IV x)). apply get_ab in Hm. congruence. }
    pose proof (sim_navigate _ _ _ _ _ _ _ _ SM x qx Hqx Hdomx) as Hnav.
    assert (forall p, parent (sh_arena s) x = Some p -> dom p -> contk (kd p) /\ is_cont a (f p)) as Hup.
    { intros p Hp Hdp. pose proof (sim_parent_elem _ _ _ _ _ _ _ _ x p SM Hp Hdp). split; [done|].
      exists (kd p). split; [by apply (sm_kind _ _ _ _ _ _ _ SM)|done]. }
    assert (exists s1 a1 sl1 dom1 kd1 f1, out_of_place s x = Val s1 /\
       (forall to slot p pos, can_put a1 sl1 (f x) to slot p pos ->
          exists st' a' sl', ap st (PMove qx to slot) = (st', Val tt) /\ shw st' (a', sl') /\
            places a1 sl1 (f x) p pos slot a' sl') /\
       length a <= length a1 /\ (forall z, z < length (sh_arena s) -> f1 z = f z) /\ parent (sh_arena s1) x = None /\ parent a1 (f x) = None /\
       length (sh_arena s) <= length (sh_arena s1) /\
       sim s1 (a1, sl1) f1 dom1 kd1 bd lb /\
       inv s1 b2s del pend (fun z => z = x) dom1 kd1 AP /\ ~ above (sh_arena s1) x sp) as
      (s1 & a1 & sl1 & dom1 & kd1 & f1 & Eo & Hput & Hla & Ef' & Po & Pd & Hlen & SM1 & IV1 & Hna1).
    { destruct (spath_dom _ _ _ _ _ _ _ _ SM x qx Hqx Hdomx)
        as [(sl' & k & -> & Hp & Hk)|(p & q' & i & -> & Hp & Hdp & Hi & Hq')].
      - (* root of a slot *)
        assert (parent (sh_arena s) sl' = Some (sh_super s)) as Hps.
        { apply (wf_pc _ W). by eapply elem_of_list_lookup_2. }
        assert (k <> 0) as Hk0.
        { intros ->. apply Hx0. eapply (sim_slot0 _ _ _ _ _ _ _ _ SM); eauto. }
        destruct (sm_slot _ _ _ _ _ _ _ SM k sl' x Hk) as [Hgk Hdp]; [by apply (wf_pc _ W)|done|].
        pose proof (Hdp Hk0) as Hdor. simpl in Hdor, Hgk.
        destruct (ap_move_slot _ _ _ _ AO st a sl k (f x) SH Wd Hk0 Hgk Hdor) as (sl1 & [Hsl1 _] & Hput).
        destruct (detach_sh_full s x SW Hxs Hxs') as [SW1 UL].
        set (s1 := sh_with s (detach (sh_arena s) x)) in *.
        assert (sim s1 (a, sl1) f dom kd bd lb) as SM1.
        { apply (sim_unslot _ _ _ _ _ _ _ _ SM sl1 s1 x sl' UL SW1 eq_refl Hdomx Hx0 Hp Hps).
          intros j Hj. apply Hsl1. congruence. }
        destruct (unlinked_gone s s1 _ _ _ _ _ _ x sl' SM Hdomx UL Hp Hps) as (G1 & G2 & G3).
        exists s1, a, sl1, dom, kd, f. split.
        { unfold out_of_place. by rewrite Hp, Hps, Nat.eqb_refl. }
        split; [exact Hput|]. split; [done|].
        split; [done|]. split. { unfold s1; cbn [sh_with sh_arena]. rewrite (ul_parent _ _ _ UL). by rewrite Nat.eqb_refl. }
        split; [done|]. split; [unfold s1; cbn [sh_with sh_arena]; by rewrite (ul_len _ _ _ UL)|]. split; [done|].
        split; [|by apply (above_gone s s1 x sp W HspL G1)].
        apply (inv_gone s s1 (a, sl) f dom kd dom kd bd lb b2s del pend AP del (fun z => z = x) x SM IV Hdomx
                 eq_refl G1 G2 G3); auto.
        + intros z Hz. assert (z = y) as -> by (by apply (iv_inj _ _ _ _ _ _ _ _ IV x)). done.
      - (* inner node *)
        destruct (detach_with_placeholder_full s x SW HxL Hxs Hxs') as (s1 & Es1 & SW1 & Su1 & RP).
        destruct (ap_move_inner _ _ _ _ AO st a sl (q' ++ [i]) (f x) (f p) SH Wd) as (a1 & RD & Hput).
        { apply spath_length in Hq'. destruct q' as [|j q']; [done|]. rewrite app_length. simpl. lia. }
        { exact Hnav. } { by apply (sim_parent _ _ _ _ _ _ _ _ SM x p). } { by apply Hup. }
        pose proof (sim_replace _ _ _ _ _ _ _ _ SM s1 a1 x p _ RP SW1 Su1 RD Hdomx Hp Hdp) as SM1.
        destruct (replaced_gone s s1 _ _ _ _ _ _ x _ SM Hdomx RP) as (G1 & G2 & G3).
        eexists s1, a1, sl, _, _, _. split.
        { unfold out_of_place. rewrite Hp.
          assert (parent (sh_arena s) p <> Some (sh_super s)) as Hpp by (by apply (sm_inner _ _ _ _ _ _ _ SM p Hdp)).
          destruct (parent (sh_arena s) p) as [g|]; [|done]. destruct (Nat.eqb_spec g (sh_super s)); [congruence|done]. }
        split; [exact Hput|]. split; [rewrite (rp_len _ _ _ _ RD); lia|].
        split; [|split; [|split; [|split; [|split; [exact SM1|split; [|by apply (above_gone s s1 x sp W HspL G1)]]]]]].
        + intros z Hz. cbv beta. destruct (Nat.eqb_spec z (length (sh_arena s))); [lia|done].
        + rewrite (rp_parent _ _ _ _ RP) by lia. by rewrite Nat.eqb_refl.
        + rewrite (rp_parent _ _ _ _ RD) by lia. by rewrite Nat.eqb_refl.
        + rewrite (rp_len _ _ _ _ RP). lia.
        + apply (inv_gone s s1 (a, sl) f dom kd _ _ bd lb b2s del pend AP del (fun z => z = x) x SM IV Hdomx
                 Su1 G1 G2 G3); auto.
          * intros z [Hz| ->]; [by left|right]. rewrite Nat.eqb_refl. split; [done|]. apply RP.
          * intros z Hz. apply (sm_lt _ _ _ _ _ _ _ SM) in Hz as [? _].
            by destruct (Nat.eqb_spec z (length (sh_arena s))); [lia|].
          * intros z Hz. assert (z = y) as -> by (by apply (iv_inj _ _ _ _ _ _ _ _ IV x)). done. }
    pose proof (Ef' x HxL) as Ef.
    destruct (put_step s1 a1 sl1 f1 dom1 kd1 bd lb b2s del pend (fun z => z = x) AP (set_parent AP x (img py)) y py x sp SM1 IV1 Hy Hyr Hpy)
      as (q & s' & slot & Hq & Hq' & Hins & Hcan & Hafter); try done.
    { by rewrite Ef. }
    { intros [i|z] Hn; cbn; [|done]. destruct (Nat.eqb_spec i x) as [->|]; [|done]. by destruct Hn. }
    { intros [i|z] Hn; cbn.
      - destruct Hn as [-> _]. by rewrite Nat.eqb_refl.
      - destruct Hn as [Hu Hz]. exfalso.
        assert (z = y) as -> by (by apply (iv_inj _ _ _ _ _ _ _ _ IV x)). apply get_ab in Hm. congruence. }
    rewrite Ef in Hcan, Hafter. destruct (Hput _ _ _ _ Hcan) as (st' & a' & sl' & Happ & SH' & Hpl).
    destruct (Hafter _ _ Hpl) as (f' & dom' & kd' & FX' & SM' & IV').
    pose proof (sm_sh _ _ _ _ _ _ _ SM') as SW'.
    exists (mkCS s' (slot_set b2s y x) (outp ++ [PMove qx (q ++ [t_position tb y]) slot])),
      (PMove qx (q ++ [t_position tb y]) slot), st'.
    assert (forall k, slot_get (slot_set b2s y x) k = slot_get b2s k) as Hsame.
    { intros k. rewrite slot_get_set. by destruct (Nat.eqb_spec y k) as [<-|]. }
    split; [|split; [done|split; [|split; [|split; [exact Hsame|]]]]].
    - unfold convert_op, shadow_parent. cbn [cs_shadow cs_b2s cs_out]. rewrite Hsp. cbn [obind].
      pose proof (not_above_ancestor s x sp W Hna) as Hanc.
      rewrite Hanc. cbn [obind cs_shadow cs_b2s cs_out].
      rewrite (spath_compute s x qx SW Hqx). cbn [obind].
      rewrite (sh_move_insert s x sp (t_position tb y) s1 Hanc Eo (sw_wf _ (sm_sh _ _ _ _ _ _ _ SM1))); [|lia|lia|done].
      rewrite Hins. cbn [obind]. by rewrite (ref_of_spath s' sp q _ SW' Hq').
    - exact Happ.
    - apply hits_other. apply (path_not_body s a sl f dom kd bd lb x qx SM Hdomx Hqx Hx0).
    - exists (a', sl'). split; [done|]. exists f', dom', kd'. split.
      { assert (forall z, real b2s z -> f' z = f z) as FX1.
        { intros z Hz. apply (iv_dom _ _ _ _ _ _ _ _ IV) in Hz.
          apply (sm_lt _ _ _ _ _ _ _ SM) in Hz as [? _]. rewrite FX' by lia. by apply Ef'. }
        destruct FX as (F1 & F2 & F3). cbn [fst] in F2. pose proof (places_len _ _ _ _ _ _ _ _ Hpl) as Hl1.
        split; [|split].
        - intros z Hz. rewrite FX1 by (by left). by apply F1.
        - cbn [fst]. lia.
        - intros z w Hz Hzw. rewrite Hsame in Hzw. rewrite FX1 by (right; eauto). by eapply F3. }
      split; [done|]. by apply (inv_ext s' b2s _ del (fun z => pend z /\ z <> y)).
  Qed.

  Lemma delete_step AP ins cs st del pend bd lb x :
    joint AP (cs_shadow cs) st (cs_b2s cs) del pend bd lb ->
    (forall y, ~ pend y) ->
    x < N -> get_b m x = None -> ~ del x ->
    (forall c, parent t c = Some x -> get_b m c = None -> del c) ->
    exists cs' p st',
      convert_op tb ins cs (Delete x) = Val cs' /\
      cs_out cs' = cs_out cs ++ [p] /\ ap st p = (st', Val tt) /\ hits_body p = false /\
      cs_b2s cs' = cs_b2s cs /\
      joint AP (cs_shadow cs') st' (cs_b2s cs') (fun z => del z \/ z = x) pend bd lb.
  Proof.
    destruct cs as [s b2s outp]. cbn [cs_shadow cs_b2s cs_out].
    intros ([a sl] & SH & f & dom & kd & FX & SM & IV) Hnp HxN Hun Hdx Hkids.
    assert (x <> 0) as Hx0. { intros ->. congruence. }
    pose proof (sm_sh _ _ _ _ _ _ _ SM) as SW. pose proof (sw_wf _ SW) as W.
    pose proof (sm_wf _ _ _ _ _ _ _ SM) as Wd. simpl in Wd.
    assert (real b2s x) as Hrx by (by left).
    pose proof (iv_dom _ _ _ _ _ _ _ _ IV _ Hrx) as Hdomx.
    destruct (sm_lt _ _ _ _ _ _ _ SM _ Hdomx) as [HxL HxD]. simpl in HxD.
    destruct (sm_inner _ _ _ _ _ _ _ SM _ Hdomx) as [Hxs Hxs'].
    destruct (inv_path _ _ _ _ _ _ _ _ _ _ _ _ SM IV x Hrx Hdx) as [(qx & Hqx) _]; [by intros z []|].
    pose proof (sim_navigate _ _ _ _ _ _ _ _ SM x qx Hqx Hdomx) as Hnav.
    assert (forall y, slot_get b2s y <> Some x) as Hnob.
    { intros y Hy. destruct (get_a m y) as [x'|] eqn:Ey.
      - apply get_ab in Ey. pose proof (iv_matched _ _ _ _ _ _ _ _ IV _ _ Ey). congruence.
      - pose proof (iv_fresh _ _ _ _ _ _ _ _ IV _ _ Hy Ey). lia. }
    (* no remaining real node is below [x] *)
    assert (forall z, real b2s z -> ~ (del z \/ z = x) -> parent (sh_arena s) z = Some x -> False) as Hbelow.
    { intros z Hz Hdz Hp.
      assert (forall y, slot_get b2s y = Some z -> False) as Hnoslot.
      { intros y Hy. destruct (decide (y = t_root tb)) as [->|Hyr].
        - pose proof (iv_matched _ _ _ _ _ _ _ _ IV _ _ MR) as H0. assert (z = 0) as -> by congruence.
          destruct (sm_root _ _ _ _ _ _ _ SM) as (_ & _ & s0 & Hs0 & Hc0).
          assert (parent (sh_arena s) 0 = Some s0) as Hp0. { apply (wf_pc _ W). rewrite Hc0. by left. }
          assert (s0 = x) as -> by congruence.
          apply Hxs'. apply (wf_pc _ W). by eapply elem_of_list_lookup_2.
        - destruct (iv_placed _ _ _ _ _ _ _ _ IV y) as (py & z' & xp & H1 & H2 & H3 & H4);
            [by eapply (iv_iter _ _ _ _ _ _ _ _ IV)|done|by apply Hnp|].
          assert (z' = z) as -> by congruence.
          assert (parent (sh_arena s) z = Some xp) as Hpz. { apply (wf_pc _ W). by eapply elem_of_list_lookup_2. }
          assert (xp = x) as -> by congruence. by apply (Hnob py). }
      destruct Hz as [HzN|[y Hy]]; [|by eapply Hnoslot].
      destruct (get_b m z) as [y|] eqn:Ez.
      { apply (Hnoslot y). by apply (iv_matched _ _ _ _ _ _ _ _ IV). }
      destruct (iv_old _ _ _ _ _ _ _ _ IV z x HzN Ez) as [Hz|?]; [by intros ?; apply Hdz; left|done| |done].
      apply Hdz. left. by apply Hkids. }
    destruct (detach_with_placeholder_full s x SW HxL Hxs Hxs') as (s1 & Es1 & SW1 & Su1 & RP).
    destruct (replaced_gone s s1 _ _ _ _ _ _ x _ SM Hdomx RP) as (G1 & G2 & G3).
    assert (exists st', ap st (PRemove qx) = (st', Val tt) /\
       joint AP s1 st' b2s (fun z => del z \/ z = x) pend bd lb) as (st' & Eap & J').
    { destruct (spath_dom _ _ _ _ _ _ _ _ SM x qx Hqx Hdomx)
        as [(sl' & k & -> & Hp & Hk)|(p & q' & i & -> & Hp & Hdp & Hi & Hq')].
      + assert (parent (sh_arena s) sl' = Some (sh_super s)) as Hps.
        { apply (wf_pc _ W). by eapply elem_of_list_lookup_2. }
        assert (k <> 0) as Hk0.
        { intros ->. apply Hx0. eapply (sim_slot0 _ _ _ _ _ _ _ _ SM); eauto. }
        destruct (sm_slot _ _ _ _ _ _ _ SM k sl' x Hk) as [Hgk Hdp]; [by apply (wf_pc _ W)|done|].
        pose proof (Hdp Hk0) as Hdor. simpl in Hdor, Hgk.
        destruct (ap_remove_slot _ _ _ _ AO st a sl k (f x) SH Wd Hk0 Hgk HxD Hdor) as (st' & a1 & sl1 & KP & [Hsl1 _] & Eap & SH').
        exists st'. split; [done|]. exists (a1, sl1). split; [done|]. exists f, dom, kd. split.
        { destruct FX as (F1 & F2 & F3). split; [done|]. split; [|done]. pose proof (kp_len _ _ KP). cbn [fst] in *. lia. }
        split.
        * apply (sim_drop _ _ _ _ _ _ _ _ SM sl1 s1 a1 x sl' _ RP SW1 Su1 KP Hdomx Hx0 Hp Hps).
          intros j Hj. apply Hsl1. congruence.
        * apply (inv_gone s s1 (a, sl) f dom kd dom kd bd lb b2s del pend AP (fun z => del z \/ z = x) no1 x SM IV Hdomx
                 Su1 G1 G2 G3); auto.
          -- intros z [?| ->]; [by left|by right].
          -- intros z Hz Hdz Hpz. by destruct (Hbelow z Hz Hdz Hpz).
          -- intros y Hy. by destruct (Hnob y).
      + destruct (ap_remove_inner _ _ _ _ AO st a sl (q' ++ [i]) (f x) (f p) SH Wd) as (st' & a1 & RD & Eap & SH').
        { apply spath_length in Hq'. destruct q' as [|j q']; [done|]. rewrite app_length. simpl. lia. }
        { exact Hnav. } { by apply (sim_parent _ _ _ _ _ _ _ _ SM x p). }
        { exists (kd p). split; [by apply (sm_kind _ _ _ _ _ _ _ SM)|]. by apply (sim_parent_elem _ _ _ _ _ _ _ _ x p SM). }
        exists st'. split; [done|]. exists (a1, sl). split; [done|].
        pose proof (sim_replace _ _ _ _ _ _ _ _ SM s1 a1 x p _ RP SW1 Su1 RD Hdomx Hp Hdp) as SM1.
        eexists _, _, _. split; [|split; [exact SM1|]].
        { assert (forall z, real b2s z -> (fun x => if Nat.eqb x (length (sh_arena s)) then length a else f x) z = f z) as FX1.
          { intros z Hz. apply (iv_dom _ _ _ _ _ _ _ _ IV) in Hz.
            apply (sm_lt _ _ _ _ _ _ _ SM) in Hz as [? _]. cbv beta.
            destruct (Nat.eqb_spec z (length (sh_arena s))); [lia|done]. }
          destruct FX as (F1 & F2 & F3). cbn [fst] in F2. split; [|split].
          - intros z Hz. rewrite FX1 by (by left). by apply F1.
          - cbn [fst]. rewrite (rp_len _ _ _ _ RD). lia.
          - intros z w Hz Hzw. rewrite FX1 by (right; eauto). by eapply F3. }
        apply (inv_gone s s1 (a, sl) f dom kd _ _ bd lb b2s del pend AP (fun z => del z \/ z = x) no1 x SM IV Hdomx
                 Su1 G1 G2 G3); auto.
        * intros z [Hz| ->]; [by left|right]. rewrite Nat.eqb_refl. split; [done|]. apply RP.
        * intros z Hz. apply (sm_lt _ _ _ _ _ _ _ SM) in Hz as [? _].
          by destruct (Nat.eqb_spec z (length (sh_arena s))); [lia|].
        * intros z [?| ->]; [by left|by right].
        * intros z Hz Hdz Hpz. by destruct (Hbelow z Hz Hdz Hpz).
        * intros y Hy. by destruct (Hnob y). }
    exists (mkCS s1 b2s (outp ++ [PRemove qx])), (PRemove qx), st'.
    split; [|split; [done|split; [done|split; [|split; [done|done]]]]].
    - unfold convert_op. cbn [cs_shadow]. rewrite (spath_compute s x qx SW Hqx). cbn [obind].
      rewrite Es1. done.
    - apply hits_other. apply (path_not_body s a sl f dom kd bd lb x qx SM Hdomx Hqx Hx0).
  Qed.

  (** ** Whole phases *)


  Definition runs (ins : list nat) (cs : cstate) (st : pstate) (ops : list hop)
      (cs' : cstate) (st' : pstate) : Prop :=
    exists ps, convert_loop tb ins cs ops = Val cs' /\ cs_out cs' = cs_out cs ++ ps /\
      run_all ap st ps = (st', Val tt) /\ length ps = length ops /\
      forall p, p ∈ ps -> hits_body p = false.

  Lemma runs_nil ins cs st : runs ins cs st [] cs st.
  Proof. exists []. rewrite app_nil_r. do 4 (split; [done|]). intros p Hp. by apply elem_of_nil in Hp. Qed.

  Lemma runs_cons ins cs st op ops cs1 st1 p cs' st' :
    convert_op tb ins cs op = Val cs1 -> cs_out cs1 = cs_out cs ++ [p] ->
    ap st p = (st1, Val tt) -> hits_body p = false -> runs ins cs1 st1 ops cs' st' -> runs ins cs st (op :: ops) cs' st'.
  Proof.
    intros E1 E2 E3 E4 (ps & F1 & F2 & F3 & F4 & F5). exists (p :: ps). split; [|split; [|split; [|split]]].
    - simpl. by rewrite E1.
    - rewrite F2, E2, <- app_assoc. done.
    - simpl. by rewrite E3.
    - simpl. by rewrite F4.
    - intros p' Hp. apply elem_of_cons in Hp as [->|Hp]; [done|by apply F5].
  Qed.

  Lemma convert_loop_app ins ops1 : forall cs ops2,
    convert_loop tb ins cs (ops1 ++ ops2) =
    (let! cs1 := convert_loop tb ins cs ops1 in convert_loop tb ins cs1 ops2).
  Proof.
    induction ops1 as [|op ops1 IH]; intros cs ops2; simpl; [done|].
    destruct (convert_op tb ins cs op); simpl; [apply IH|done|done|done].
  Qed.

  Lemma runs_app ins cs st ops1 cs1 st1 ops2 cs2 st2 :
    runs ins cs st ops1 cs1 st1 -> runs ins cs1 st1 ops2 cs2 st2 -> runs ins cs st (ops1 ++ ops2) cs2 st2.
  Proof.
    intros (ps & F1 & F2 & F3 & F4 & F5) (ps' & G1 & G2 & G3 & G4 & G5). exists (ps ++ ps').
    split; [|split; [|split; [|split]]].
    - by rewrite convert_loop_app, F1.
    - by rewrite G2, F2, app_assoc.
    - by rewrite run_all_app, F3.
    - rewrite !app_length. lia.
    - intros p Hp. apply elem_of_app in Hp as [Hp|Hp]; [by apply F5|by apply G5].
  Qed.

  Lemma nodup_split_eq {A} (l1 l2 k1 k2 : list A) x :
    NoDup (l1 ++ x :: l2) -> l1 ++ x :: l2 = k1 ++ x :: k2 -> l1 = k1.
  Proof.
    revert k1. induction l1 as [|y l1 IH]; intros [|z k1] Hnd E; simpl in *.
    - done.
    - injection E as -> ->. apply NoDup_cons in Hnd as [Hn _]. exfalso. apply Hn.
      apply elem_of_app. right. by left.
    - injection E as -> E. apply NoDup_cons in Hnd as [Hn _]. exfalso. apply Hn.
      apply elem_of_app. right. by left.
    - injection E as -> E. apply NoDup_cons in Hnd as [_ Hnd]. f_equal. by eapply IH.
  Qed.

  Lemma before_done {A} (l : list A) x y dn rest :
    NoDup l -> before l x y -> l = dn ++ y :: rest -> x ∈ dn.
  Proof.
    intros Hnd (l1 & l2 & l3 & E) E'. rewrite E' in E, Hnd.
    rewrite app_comm_cons, app_assoc in E. symmetry in E.
    assert (NoDup ((l1 ++ x :: l2) ++ y :: l3)) as Hnd' by (by rewrite E).
    apply (nodup_split_eq _ _ _ _ _ Hnd') in E as <-. apply elem_of_app. right. by left.
  Qed.

  Lemma pr_parent_neq {H' K P T} (tr : dtree H' K P T) r x p : presents tr r ->
    x ∈ t_iter tr -> x <> t_root tr -> t_parent tr x = Some p -> p <> x.
  Proof.
    intros PR Hx Hr Hp ->. destruct (pr_nonroot tr r PR x Hx Hr) as (q & Hq & _ & Hl).
    assert (q = x) as -> by congruence. apply elem_of_list_lookup_2 in Hl.
    apply (pr_iter_subt tr r PR) in Hx as (u & Hu & <-).
    rewrite (pr_children tr r PR u Hu) in Hl. apply elem_of_list_fmap in Hl as (c & E & Hc).
    assert (u = c) as <-.
    { apply (subt_rid_inj r); [apply PR|done| |done]. eapply subt_trans; [by apply subt_child|done]. }
    pose proof (rheight_child u u Hc). lia.
  Qed.

  Lemma parent_before y py : y ∈ t_iter tb -> y <> t_root tb -> t_parent tb y = Some py ->
    before (t_iter tb) py y /\ py ∈ t_iter tb.
  Proof.
    intros Hy Hyr Hp.
    destruct (pr_nonroot tb rb PB y Hy Hyr) as (q & Hq & Hqi & Hl).
    assert (q = py) as -> by congruence. split; [|done].
    apply elem_of_list_lookup_2 in Hl.
    pose proof (pr_desc_self tb rb PB py Hqi) as Hself.
    pose proof (pr_desc_child tb rb PB py py y Hqi Hself Hl) as Hd.
    apply (pr_iter_subt tb rb PB) in Hqi as (u & Hu & <-).
    rewrite (pr_desc tb rb PB u Hu) in Hd. rewrite (pr_iter tb rb PB).
    apply preorder_before; [done|done|]. intros E. apply (pr_parent_neq tb rb y (rid u) PB Hy Hyr Hp). done.
  Qed.

  Lemma inserts_run AP ins del bd lb :
    (forall y py, get_a m y = None -> t_parent tb y = Some py -> AP (inr y) = Some (img py)) ->
    (forall y, y ∈ t_iter tb -> get_a m y = None -> y ∈ ins) ->
    forall rest dn cs st pend,
    t_iter tb = dn ++ rest ->
    joint AP (cs_shadow cs) st (cs_b2s cs) del pend bd lb ->
    (forall y, y ∈ dn -> slot_get (cs_b2s cs) y <> None) ->
    (forall y, y ∈ rest -> get_a m y = None -> pend y /\ slot_get (cs_b2s cs) y = None) ->
    exists cs' st', runs ins cs st (flat_map (phase2 tb m []) rest) cs' st' /\
      joint AP (cs_shadow cs') st' (cs_b2s cs') del
        (fun z => pend z /\ ~ (z ∈ rest /\ get_a m z = None)) bd lb /\
      (forall y, y ∈ t_iter tb -> slot_get (cs_b2s cs') y <> None).
  Proof.
    intros HAP Hins rest. induction rest as [|y rest IH]; intros dn cs st pend Ei J Hdn Hrest.
    - exists cs, st. split; [apply runs_nil|]. split.
      + eapply joint_weaken; [|exact J]. intros z Hz. split; [done|]. intros [Hin _]. by apply elem_of_nil in Hin.
      + rewrite Ei, app_nil_r. done.
    - pose proof (pr_iter_nodup tb rb PB) as Hnd. rewrite Ei in Hnd.
      assert (y ∈ t_iter tb) as Hy. { rewrite Ei. apply elem_of_app. right. by left. }
      assert (t_iter tb = (dn ++ [y]) ++ rest) as Ei' by (by rewrite Ei, <- app_assoc).
      simpl flat_map. destruct (get_a m y) as [x|] eqn:Ey.
      + assert (phase2 tb m [] y = []) as ->.
        { unfold phase2. rewrite (proj2 (contains_b_true m y)); [done|eauto]. }
        destruct (IH (dn ++ [y]) cs st pend Ei' J) as (cs' & st' & R & J' & Hall).
        * intros z Hz. apply elem_of_app in Hz as [Hz|Hz]; [by apply Hdn|].
          apply elem_of_list_singleton in Hz as ->. destruct J as (st0 & _ & f & dom & kd & _ & _ & IV).
          apply get_ab in Ey. rewrite (iv_matched _ _ _ _ _ _ _ _ IV _ _ Ey). done.
        * intros z Hz. apply Hrest. by right.
        * exists cs', st'. split; [exact R|]. split; [|done]. eapply joint_weaken; [|exact J'].
          intros z [Hz Hnz]. split; [done|]. intros [Hin Hu]. apply elem_of_cons in Hin as [->|Hin]; [congruence|].
          by apply Hnz.
      + assert (y <> t_root tb) as Hyr. { intros ->. apply get_ab in MR. congruence. }
        destruct (pr_nonroot tb rb PB y Hy Hyr) as (py & Hpy & Hpyi & _).
        assert (phase2 (H:=H) (C:=list prop_change) tb m [] y
                = [Insert y py (t_position tb y) (t_kind tb y)]) as ->.
        { unfold phase2. rewrite (proj2 (contains_b_false m y) Ey), Hpy. done. }
        destruct (parent_before y py Hy Hyr Hpy) as [Hbef _].
        pose proof (before_done _ _ _ _ _ (pr_iter_nodup tb rb PB) Hbef Ei) as Hpdn.
        destruct (slot_get (cs_b2s cs) py) as [sp|] eqn:Esp; [|by apply Hdn in Hpdn].
        destruct (Hrest y) as [Hpend Hnone]; [by left|done|].
        destruct (insert_step AP ins cs st del pend bd lb y py sp HAP J Hy Hyr Ey Hnone Hpy Esp Hpend)
          as (cs1 & p & st1 & E1 & E2 & E3 & E3' & E4 & J1).
        { intros c Hc. destruct (pr_child tb rb PB y c Hy Hc) as [Hci _].
          destruct (get_a m c) as [x|] eqn:Ec.
          - left. destruct J as (st0 & _ & f & dom & kd & _ & _ & IV). apply get_ab in Ec.
            rewrite (iv_matched _ _ _ _ _ _ _ _ IV _ _ Ec). done.
          - right. by apply Hins. }
        assert (forall z, slot_get (cs_b2s cs1) z =
           if Nat.eqb y z then Some (length (sh_arena (cs_shadow cs))) else slot_get (cs_b2s cs) z) as Hs1.
        { intros z. rewrite E4. apply slot_get_set. }
        destruct (IH (dn ++ [y]) cs1 st1 _ Ei' J1) as (cs' & st' & R & J' & Hall).
        * intros z Hz. rewrite Hs1. destruct (Nat.eqb_spec y z); [done|].
          apply elem_of_app in Hz as [Hz|Hz]; [by apply Hdn|]. apply elem_of_list_singleton in Hz. done.
        * intros z Hz Hu. assert (z <> y) as Hzy.
          { intros ->. apply NoDup_app in Hnd as (_ & _ & Hnd). by apply NoDup_cons in Hnd as [? _]. }
          destruct (Hrest z) as [? ?]; [by right|done|]. split; [done|].
          rewrite Hs1. by destruct (Nat.eqb_spec y z).
        * exists cs', st'. split; [by eapply runs_cons|]. split; [|done]. eapply joint_weaken; [|exact J'].
          intros z [[Hz Hzy] Hnz]. split; [done|]. intros [Hin Hu].
          apply elem_of_cons in Hin as [->|Hin]; [done|]. by apply Hnz.
  Qed.

  Hypothesis FP : t_parent ta = parent t.
  Hypothesis T0 : parent t 0 = None.

  (** Performing the Moves in order never puts a node below itself. *)
  Fixpoint swap_free (AP : parents) (ops : list hop) : Prop :=
    match ops with
    | [] => True
    | Move x _ py _ :: ops' =>
        ~ rtc (edge AP) (img py) (inl x) /\ swap_free (set_parent AP x (img py)) ops'
    | _ :: ops' => swap_free AP ops'
    end.

  Lemma moves_run ins del bd lb :
    forall rest AP cs st pend,
    swap_free AP (flat_map (phase4 ta tb m [] []) rest) ->
    (forall p, p ∈ rest -> p ∈ m_pairs m) -> NoDup (map snd rest) ->
    joint AP (cs_shadow cs) st (cs_b2s cs) del pend bd lb ->
    (forall y, y ∈ t_iter tb -> slot_get (cs_b2s cs) y <> None) ->
    (forall x y, (x, y) ∈ rest -> phase4 (C:=list prop_change) ta tb m [] [] (x, y) <> [] -> pend y) ->
    exists AP' cs' st', runs ins cs st (flat_map (phase4 ta tb m [] []) rest) cs' st' /\
      joint AP' (cs_shadow cs') st' (cs_b2s cs') del
        (fun z => pend z /\ ~ (exists x, (x, z) ∈ rest /\
            phase4 (C:=list prop_change) ta tb m [] [] (x, z) <> [])) bd lb /\
      (forall y, y ∈ t_iter tb -> slot_get (cs_b2s cs') y <> None).
  Proof.
    intros rest. induction rest as [|[x y] rest IH]; intros AP cs st pend Hsf Hsub Hnd J Hall Hpend.
    - exists AP, cs, st. split; [apply runs_nil|]. split; [|done].
      eapply joint_weaken; [|exact J]. intros z Hz. split; [done|]. intros (x & Hin & _). by apply elem_of_nil in Hin.
    - cbn [flat_map] in Hsf |- *. simpl in Hnd. apply NoDup_cons in Hnd as [Hny Hnd].
      assert ((x, y) ∈ m_pairs m) as Hxy by (apply Hsub; by left).
      assert (get_b m x = Some y) as Hm by (by apply (bij_fwd _ BJ)).
      destruct (phase4 (C:=list prop_change) ta tb m [] [] (x, y)) as [|op l] eqn:E4.
      + destruct (IH AP cs st pend) as (AP' & cs' & st' & R & J' & Hall').
        * done.
        * intros p Hp. apply Hsub. by right.
        * done.
        * done.
        * done.
        * intros x' y' Hin. apply Hpend. by right.
        * exists AP', cs', st'. split; [exact R|]. split; [|done]. eapply joint_weaken; [|exact J'].
          intros z [Hz Hnz]. split; [done|]. intros (x' & Hin & Hne).
          apply elem_of_cons in Hin as [[= -> ->]|Hin]; [congruence|]. apply Hnz. eauto.
      + assert (pend y) as Hpy. { apply (Hpend x y); [by left|]. by rewrite E4. }
        assert (exists py, t_parent tb y = Some py /\ x <> 0 /\ op :: l = [Move x y py (t_position tb y)])
          as (py & Hpar & Hx0 & Eop).
        { unfold phase4 in E4. simpl in E4. rewrite FP in E4.
          destruct (parent t x) as [pa|] eqn:Ea; [|done]. destruct (t_parent tb y) as [pb|] eqn:Eb; [|done].
          exists pb. split; [done|]. split; [congruence|].
          destruct (match get_b m pa with Some x0 => negb (Nat.eqb x0 pb) | None => true end); [congruence|].
          destruct (negb (Nat.eqb (t_position ta x) (t_position tb y))); congruence. }
        assert (y <> t_root tb) as Hyr.
        { intros ->. apply Hx0. apply get_ab in Hm, MR. congruence. }
        destruct (MI x y Hm) as [_ Hy].
        destruct (pr_nonroot tb rb PB y Hy Hyr) as (q & Hq & Hqi & _).
        assert (q = py) as -> by congruence.
        destruct (slot_get (cs_b2s cs) py) as [sp|] eqn:Esp; [|by apply Hall in Hqi].
        rewrite Eop in Hsf. cbn [app swap_free] in Hsf. destruct Hsf as [Hsafe Hsf].
        destruct (move_step AP ins cs st del pend bd lb x y py sp J Hm Hyr Hpar Esp Hpy Hsafe)
          as (cs1 & p & st1 & E1 & E2 & E3 & E3' & E5 & J1).
        rewrite Eop.
        destruct (IH (set_parent AP x (img py)) cs1 st1 (fun z => pend z /\ z <> y)) as (AP' & cs' & st' & R & J' & Hall').
        * exact Hsf.
        * intros p' Hp. apply Hsub. by right.
        * done.
        * exact J1.
        * intros z Hz. rewrite E5. by apply Hall.
        * intros x' y' Hin Hne. split; [apply (Hpend x' y'); [by right|done]|].
          intros ->. apply Hny. apply elem_of_list_fmap. exists (x', y). done.
        * exists AP', cs', st'. split; [by eapply runs_cons|]. split; [|done]. eapply joint_weaken; [|exact J'].
          intros z [[Hz Hzy] Hnz]. split; [done|]. intros (x' & Hin & Hne).
          apply elem_of_cons in Hin as [[= -> ->]|Hin]; [done|]. apply Hnz. eauto.
  Qed.

  Variable ra : rose.
  Hypothesis PA : presents ta ra.
  Hypothesis FI : forall x, x ∈ t_iter ta <-> x < N.
  Hypothesis FR : t_root ta = 0.

  Lemma child_before c x : parent t c = Some x -> before (t_post ta) c x.
  Proof.
    intros Hp. assert (c < N) as Hc by (by eapply parent_lt). apply FI in Hc.
    assert (c <> t_root ta) as Hcr. { rewrite FR. intros ->. congruence. }
    destruct (pr_nonroot ta ra PA c Hc Hcr) as (q & Hq & Hqi & Hl).
    rewrite FP in Hq. assert (q = x) as -> by congruence.
    apply elem_of_list_lookup_2 in Hl.
    pose proof (pr_desc_self ta ra PA x Hqi) as Hself.
    pose proof (pr_desc_child ta ra PA x x c Hqi Hself Hl) as Hd.
    apply (pr_iter_subt ta ra PA) in Hqi as (u & Hu & <-).
    rewrite (pr_desc ta ra PA u Hu) in Hd. rewrite (pr_post ta ra PA).
    apply postorder_before; [done|done|]. intros E. apply (pr_parent_neq ta ra c (rid u) PA Hc Hcr); [by rewrite FP|done].
  Qed.

  Lemma deletes_run AP ins bd lb :
    forall rest dn cs st,
    t_post ta = dn ++ rest ->
    joint AP (cs_shadow cs) st (cs_b2s cs) (fun z => z ∈ dn /\ get_b m z = None) no1 bd lb ->
    exists cs' st', runs ins cs st (flat_map (phase5 m []) rest) cs' st' /\ cs_b2s cs' = cs_b2s cs /\
      joint AP (cs_shadow cs') st' (cs_b2s cs') (fun z => z < N /\ get_b m z = None) no1 bd lb.
  Proof.
    assert (NoDup (t_post ta)) as Hnd.
    { rewrite (pr_post ta ra PA). apply postorder_nodup. apply PA. }
    assert (forall s st b2s (del del' : nat -> Prop) pend, (forall z, del z <-> del' z) ->
              joint AP s st b2s del pend bd lb -> joint AP s st b2s del' pend bd lb) as Hdel.
    { intros s st b2s del del' pend E (st0 & SH & f & dom & kd & FX & SM & IV).
      exists st0. split; [done|]. exists f, dom, kd. split; [done|]. split; [done|].
      destruct IV. split; try done.
      - intros x Hx Hdx Ho. destruct (iv_live0 x Hx) as (p & Hp & Hor); [by rewrite E|done|].
        exists p. split; [done|]. destruct Hor as [?|(? & ? & ?)]; [by left|right]. by rewrite <- E.
      - intros x p Hx Hm Hdx. apply iv_old0; [done|done|by rewrite E].
      - intros x Hx. apply iv_del0. by apply E. }
    intros rest. induction rest as [|x rest IH]; intros dn cs st Ep J.
    - exists cs, st. split; [apply runs_nil|]. split; [done|].
      eapply Hdel; [|exact J]. intros z. rewrite app_nil_r in Ep. rewrite <- Ep.
      by rewrite (pr_post_iter ta ra PA), FI.
    - assert (t_post ta = (dn ++ [x]) ++ rest) as Ep' by (by rewrite Ep, <- app_assoc).
      assert (x < N) as HxN.
      { apply FI, (pr_post_iter ta ra PA). rewrite Ep. apply elem_of_app. right. by left. }
      cbn [flat_map]. destruct (get_b m x) as [y|] eqn:Ex.
      + assert (phase5 (K:=hkind) (T:=string) (C:=list prop_change) m [] x = []) as ->.
        { unfold phase5. rewrite (proj2 (contains_a_true m x)); [done|eauto]. }
        destruct (IH (dn ++ [x]) cs st Ep') as (cs' & st' & R & Eb & J').
        { eapply Hdel; [|exact J]. intros z. rewrite elem_of_app, elem_of_list_singleton.
          split; [tauto|]. intros [[?| ->] ?]; [done|congruence]. }
        exists cs', st'. done.
      + assert (phase5 (K:=hkind) (T:=string) (C:=list prop_change) m [] x = [Delete x]) as ->.
        { unfold phase5. rewrite (proj2 (contains_a_false m x) Ex). done. }
        destruct (delete_step AP ins cs st _ no1 bd lb x J) as (cs1 & p & st1 & E1 & E2 & E3 & E3' & E4 & J1).
        * by intros y [].
        * done.
        * done.
        * intros [Hin _]. rewrite Ep in Hnd. apply NoDup_app in Hnd as (_ & Hd & _).
          apply (Hd x Hin). by left.
        * intros c Hc Hu. split; [|done]. by apply (before_done _ _ _ _ _ Hnd (child_before c x Hc) Ep).
        * destruct (IH (dn ++ [x]) cs1 st1 Ep') as (cs' & st' & R & Eb & J').
          { eapply Hdel; [|exact J1]. intros z. rewrite elem_of_app, elem_of_list_singleton.
            split; [intros [[? ?]| ->]; auto|]. intros [[?| ->] ?]; auto. }
          exists cs', st'. split; [by eapply runs_cons|]. split; [congruence|done].
  Qed.
End Conv.
