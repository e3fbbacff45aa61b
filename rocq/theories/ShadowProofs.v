(** Effects of the shadow-tree operations (diff.rs:1191-1527) on well-formed
    shadow trees, and the paths computed in them. *)
From Verif Require Import Base Arena Matching Chawathe Dom HtmlDiff
  ArenaProofs ArenaOps TreeProofs DomTree ApplyProofs.

Lemma insert_take_drop {A} (l : list A) i x : i < length l -> <[i := x]> l = take i l ++ x :: drop (S i) l.
Proof. intros Hi. by apply insert_take_drop. Qed.

(** A shadow tree: a parentless super root whose children are the slots. *)
Record shwf (s : shadow) : Prop := {
  sw_wf : wf (sh_arena s);
  sw_lt : sh_super s < length (sh_arena s);
  sw_top : parent (sh_arena s) (sh_super s) = None;
  sw_next : sh_next s = length (children (sh_arena s) (sh_super s))
}.

(** [n] went to a fresh slot. *)
Record slotted (s s' : shadow) (n : nat) : Prop := {
  st_wf : shwf s';
  st_super : sh_super s' = sh_super s;
  st_len : length (sh_arena s') = S (length (sh_arena s));
  st_data : forall j, j < length (sh_arena s) -> data (sh_arena s') j = data (sh_arena s) j;
  st_children : forall j, children (sh_arena s') j =
     if Nat.eqb j (sh_super s) then children (sh_arena s) (sh_super s) ++ [length (sh_arena s)]
     else if Nat.eqb j (length (sh_arena s)) then [n]
     else remove_id n (children (sh_arena s) j);
  st_parent : forall j, parent (sh_arena s') j =
     if Nat.eqb j n then Some (length (sh_arena s))
     else if Nat.eqb j (length (sh_arena s)) then Some (sh_super s)
     else parent (sh_arena s) j
}.

Lemma detach_to_slot_full s n :
  shwf s -> n < length (sh_arena s) -> n <> sh_super s -> parent (sh_arena s) n <> Some (sh_super s) ->
  exists s', detach_to_slot s n = Val (s', sh_next s) /\ slotted s s' n.
Proof.
  intros [W Lt Top Nx] Hn Hns Hps. unfold detach_to_slot.
  destruct (new_node_full (sh_arena s) marker W) as (W1 & L1 & P1 & C1 & D1 & Cj & Pj & Dj).
  change (new_node (sh_arena s) marker) with (fst (new_node (sh_arena s) marker), length (sh_arena s)).
  set (a := sh_arena s) in *. set (su := sh_super s) in *.
  set (a1 := fst (new_node a marker)) in *. cbv beta iota.
  destruct (append_full a1 su (length a)) as (a2 & E2 & [W2 L2 D2 C2 P2]); [done|lia|lia|done| |].
  { apply leaf_not_above; [done|done|lia]. }
  rewrite E2. simpl.
  assert (children a2 su !! sh_next s = Some (length a)) as Hk.
  { rewrite C2, Nat.eqb_refl, Cj, Nx. apply list_lookup_middle. done. }
  rewrite Hk. simpl.
  destruct (detach_full a2 n W2) as [W3 L3 D3 C3 P3]. set (a3 := detach a2 n) in *.
  assert (length a <> su) as Hnew by lia.
  destruct (append_full a3 (length a) n) as (a4 & E4 & [W4 L4 D4 C4 P4]); [done|lia|lia| | |].
  { by rewrite P3, Nat.eqb_refl. }
  { intros Ha. apply above_inv in Ha as [->|(q & Hq & Ha)]; [lia|].
    rewrite P3 in Hq. destruct (Nat.eqb_spec (length a) n); [lia|].
    rewrite P2, Nat.eqb_refl in Hq. injection Hq as <-.
    apply above_inv in Ha as [->|(q & Hq & _)]; [done|].
    rewrite P3 in Hq. destruct (Nat.eqb_spec su n); [done|].
    rewrite P2 in Hq. destruct (Nat.eqb_spec su (length a)); [lia|]. rewrite Pj in Hq. congruence. }
  rewrite E4. simpl. eexists. split; [reflexivity|].
  assert (n ∉ children a su) as Hnsu. { intros Hin. apply (wf_pc a W) in Hin. done. }
  assert (forall j, children a4 j =
     if Nat.eqb j su then children a su ++ [length a]
     else if Nat.eqb j (length a) then [n] else remove_id n (children a j)) as Hch.
  { intros j. rewrite C4, !C3, !C2, !Cj.
    destruct (Nat.eqb_spec j (length a)) as [->|].
    - destruct (Nat.eqb_spec (length a) su); [lia|].
      rewrite (children_ge a (length a)) by lia. done.
    - destruct (Nat.eqb_spec j su) as [->|]; [|done].
      apply remove_id_notin. rewrite not_elem_of_app. split; [done|].
      rewrite elem_of_list_singleton. lia. }
  assert (forall j, parent a4 j = if Nat.eqb j n then Some (length a)
     else if Nat.eqb j (length a) then Some su else parent a j) as Hpa.
  { intros j. rewrite P4, P3, P2, Pj. by destruct (Nat.eqb_spec j n). }
  split; simpl; fold a; fold su.
  - split; simpl; fold su; fold a.
    + done.
    + lia.
    + rewrite Hpa. destruct (Nat.eqb_spec su n); [by subst n|]. destruct (Nat.eqb_spec su (length a)); [lia|done].
    + rewrite Hch, Nat.eqb_refl, app_length, Nx. simpl. fold a su. lia.
  - done.
  - lia.
  - intros j Hj. rewrite D4, D3, D2. apply Dj. lia.
  - done.
  - done.
Qed.

(** ** Putting a detached node at a position *)

(** The position was taken: the occupant went to a fresh slot. *)
Record took (s s' : shadow) (p pos n occ : nat) : Prop := {
  tk_wf : shwf s';
  tk_super : sh_super s' = sh_super s;
  tk_len : length (sh_arena s') = S (length (sh_arena s));
  tk_data : forall j, j < length (sh_arena s) -> data (sh_arena s') j = data (sh_arena s) j;
  tk_children : forall j, children (sh_arena s') j =
     if Nat.eqb j (sh_super s) then children (sh_arena s) (sh_super s) ++ [length (sh_arena s)]
     else if Nat.eqb j (length (sh_arena s)) then [occ]
     else if Nat.eqb j p then <[pos := n]> (children (sh_arena s) p)
     else children (sh_arena s) j;
  tk_parent : forall j, parent (sh_arena s') j =
     if Nat.eqb j occ then Some (length (sh_arena s))
     else if Nat.eqb j (length (sh_arena s)) then Some (sh_super s)
     else if Nat.eqb j n then Some p
     else parent (sh_arena s) j
}.

(** The position was beyond the children: gaps are filled first. *)
Record grew (s s' : shadow) (p pos n : nat) : Prop := {
  gw_wf : shwf s';
  gw_super : sh_super s' = sh_super s;
  gw_len : length (sh_arena s') = length (sh_arena s) + (pos - length (children (sh_arena s) p));
  gw_data : forall j, j < length (sh_arena s) -> data (sh_arena s') j = data (sh_arena s) j;
  gw_children : forall j, children (sh_arena s') j =
     if Nat.eqb j p then children (sh_arena s) p
       ++ seq (length (sh_arena s)) (pos - length (children (sh_arena s) p)) ++ [n]
     else children (sh_arena s) j;
  gw_parent : forall j, parent (sh_arena s') j =
     if Nat.eqb j n then Some p
     else if Nat.leb (length (sh_arena s)) j &&
             Nat.ltb j (length (sh_arena s) + (pos - length (children (sh_arena s) p)))
     then Some p else parent (sh_arena s) j
}.

Lemma sh_insert_took s p pos n occ :
  shwf s -> n < length (sh_arena s) -> parent (sh_arena s) n = None -> ~ above (sh_arena s) n p ->
  p <> sh_super s -> n <> sh_super s -> children (sh_arena s) p !! pos = Some occ ->
  exists s', sh_insert s p pos n = Val (s', Some (sh_next s)) /\ took s s' p pos n occ.
Proof.
  intros [W Lt Top Nx] Hn Ho Hna Hps Hns Hocc. unfold sh_insert. rewrite Hocc.
  assert (occ ∈ children (sh_arena s) p) as Hin by (by eapply elem_of_list_lookup_2).
  pose proof (proj2 (wf_pc _ W _ _) Hin) as Hpo.
  assert (occ <> n) as Hon by congruence.
  destruct (insert_before_full (sh_arena s) occ n p W Hn Ho Hpo Hna) as (a1 & E1 & [W1 L1 D1 C1 P1]).
  rewrite E1. simpl.
  assert (n ∉ children (sh_arena s) (sh_super s)) as Hnsu by (by apply orphan_notin).
  assert (shwf (sh_with s a1)) as SW.
  { split; simpl; [done|lia| |].
    - rewrite P1. destruct (Nat.eqb_spec (sh_super s) n); [congruence|done].
    - rewrite C1. destruct (Nat.eqb_spec (sh_super s) p); [congruence|done]. }
  destruct (detach_to_slot_full (sh_with s a1) occ SW) as (s' & E & [SW' Su' L' D' C' P']); simpl in *.
  { rewrite L1. by eapply wf_child_lt. }
  { intros ->. congruence. }
  { rewrite P1. destruct (Nat.eqb_spec occ n); [done|]. congruence. }
  rewrite E. simpl. eexists. split; [reflexivity|].
  rewrite L1 in *. split; try done.
  - intros j Hj. rewrite D' by lia. apply D1.
  - intros j. rewrite C'. destruct (Nat.eqb_spec j (sh_super s)) as [->|]; [|destruct (Nat.eqb_spec j (length (sh_arena s))); [done|]].
    + rewrite C1. destruct (Nat.eqb_spec (sh_super s) p); [congruence|done].
    + rewrite C1. destruct (Nat.eqb_spec j p) as [->|].
      * apply replace_occupant; [apply W|done|]. by apply orphan_notin.
      * apply remove_id_notin. intros Hj. apply (wf_pc _ W) in Hj. congruence.
  - intros j. rewrite P', P1. done.
Qed.

Lemma sh_insert_grew s p pos n :
  shwf s -> n < length (sh_arena s) -> p < length (sh_arena s) ->
  parent (sh_arena s) n = None -> ~ above (sh_arena s) n p ->
  p <> sh_super s -> n <> sh_super s -> children (sh_arena s) p !! pos = None ->
  exists s', sh_insert s p pos n = Val (s', None) /\ grew s s' p pos n.
Proof.
  intros [W Lt Top Nx] Hn Hp Ho Hna Hps Hns Hocc. unfold sh_insert. rewrite Hocc.
  apply lookup_ge_None in Hocc.
  destruct (fill_gaps_full gap (pos - length (children (sh_arena s) p)) (sh_arena s) p W Hp)
    as (a1 & E1 & [W1 L1 D1 N1 C1 P1]). rewrite E1. simpl.
  rewrite (C1 p), Nat.eqb_refl.
  rewrite lookup_ge_None_2 by (rewrite app_length, seq_length; lia).
  assert (~ above a1 n p) as Hna1.
  { intros Ha. apply Hna. destruct Ha as (l & Hl & Hx).
    destruct (wf_chain _ W p) as [l0 Hl0]. exists l0. split; [done|].
    assert (chain a1 p l0) as Hc.
    { eapply chain_agree; [done|]. intros x Hx'. rewrite P1.
      assert (x < length (sh_arena s)) by (destruct Hx' as [->|]; [done|by eapply chain_lt]).
      destruct (Nat.leb_spec (length (sh_arena s)) x); simpl; [lia|done]. }
    by rewrite (chain_det _ _ _ _ Hc Hl). }
  assert (parent a1 n = None) as Ho1.
  { rewrite P1. destruct (Nat.leb_spec (length (sh_arena s)) n); simpl; [lia|done]. }
  destruct (append_full a1 p n W1 ltac:(lia) ltac:(lia) Ho1 Hna1) as (a2 & E2 & [W2 L2 D2 C2 P2]).
  rewrite E2. simpl. eexists. split; [reflexivity|].
  split; simpl.
  - split; simpl; [done|lia| |].
    + rewrite P2, P1. destruct (Nat.eqb_spec (sh_super s) n); [congruence|].
      destruct (Nat.leb_spec (length (sh_arena s)) (sh_super s)); simpl; [lia|done].
    + rewrite C2, !C1. destruct (Nat.eqb_spec (sh_super s) p); [congruence|done].
  - done.
  - lia.
  - intros j Hj. rewrite D2. by apply D1.
  - intros j. rewrite C2, !C1, Nat.eqb_refl. destruct (Nat.eqb_spec j p); [|done].
    by rewrite <- app_assoc.
  - intros j. rewrite P2, P1. done.
Qed.

(** ** Taking a node out *)

(** In place of [n] stands a fresh empty text. *)
Lemma detach_with_placeholder_full s n :
  shwf s -> n < length (sh_arena s) -> n <> sh_super s -> parent (sh_arena s) n <> Some (sh_super s) ->
  exists s', detach_with_placeholder s n = Val s' /\ shwf s' /\ sh_super s' = sh_super s /\
    replaced (sh_arena s) (sh_arena s') n (mkTD KText [] None).
Proof.
  intros [W Lt Top Nx] Hn Hns Hps.
  destruct (replace_leaf_full (sh_arena s) n (mkTD KText [] None) W Hn) as (a' & E & R).
  unfold replace_leaf in E. unfold detach_with_placeholder.
  change (new_node (sh_arena s) (mkTD KText [] None)) with
    (fst (new_node (sh_arena s) (mkTD KText [] None)), length (sh_arena s)) in *.
  cbv beta iota in *.
  destruct (insert_before _ n _) as [a2| | |] eqn:E2; simpl in E; try done.
  injection E as <-. simpl. eexists. split; [reflexivity|]. split; [|split; [done|exact R]].
  destruct R as [W' L' D' DN' CL' PN' P' C' CO']. split; simpl.
  - done.
  - lia.
  - rewrite P' by lia. destruct (Nat.eqb_spec (sh_super s) n); [congruence|done].
  - rewrite CO'; [done|lia|done].
Qed.

Lemma detach_sh_full s n :
  shwf s -> n <> sh_super s -> parent (sh_arena s) n <> Some (sh_super s) ->
  shwf (sh_with s (detach (sh_arena s) n)) /\
  unlinked (sh_arena s) (detach (sh_arena s) n) n.
Proof.
  intros [W Lt Top Nx] Hns Hps. pose proof (detach_full (sh_arena s) n W) as U.
  split; [|done]. destruct U as [W' L' D' C' P']. split; simpl.
  - done.
  - by rewrite L'.
  - rewrite P'. destruct (Nat.eqb_spec (sh_super s) n); [congruence|done].
  - rewrite C', remove_id_notin; [done|]. intros Hin. apply (wf_pc _ W) in Hin. done.
Qed.

(** Moving a detached node is inserting it. *)
Definition out_of_place (s : shadow) (n : nat) : outcome shadow :=
  let slot_root :=
    match parent (sh_arena s) n with
    | Some q => match parent (sh_arena s) q with
                | Some g => Nat.eqb g (sh_super s)
                | None => false
                end
    | None => false
    end in
  if slot_root then Val (sh_with s (detach (sh_arena s) n)) else detach_with_placeholder s n.

Lemma sh_move_insert s n p pos s1 :
  sh_is_ancestor s n p = Val false -> out_of_place s n = Val s1 ->
  wf (sh_arena s1) -> p < length (sh_arena s1) -> n < length (sh_arena s1) -> parent (sh_arena s1) n = None ->
  sh_move s n p pos = sh_insert s1 p pos n.
Proof.
  intros Ha Ho W Hp Hn Hpn. unfold sh_move. rewrite Ha. simpl. fold (out_of_place s n). rewrite Ho. simpl.
  unfold sh_insert.
  assert (forall occ, children (sh_arena s1) p !! pos = Some occ -> Nat.eqb occ n = false) as Hocc.
  { intros occ Hocc. apply Nat.eqb_neq. intros ->.
    apply elem_of_list_lookup_2 in Hocc. apply (wf_pc _ W) in Hocc. congruence. }
  destruct (children (sh_arena s1) p !! pos) as [occ|] eqn:E.
  { by rewrite (Hocc occ). }
  destruct (fill_gaps_full gap (pos - length (children (sh_arena s1) p)) (sh_arena s1) p W Hp)
    as (a1 & E1 & [W1 L1 D1 N1 C1 P1]). rewrite E1. simpl.
  rewrite (C1 p), Nat.eqb_refl.
  apply lookup_ge_None in E.
  rewrite lookup_ge_None_2; [done|]. rewrite app_length, seq_length. lia.
Qed.

(** ** Paths *)

(** [spath s x q]: following [q] (slot number, then child positions) in [s]
    leads to [x]. *)
Inductive spath (s : shadow) : nat -> path -> Prop :=
| spath_root x sl k :
    parent (sh_arena s) x = Some sl -> children (sh_arena s) (sh_super s) !! k = Some sl ->
    spath s x [k]
| spath_step x p q i :
    parent (sh_arena s) x = Some p -> parent (sh_arena s) p <> Some (sh_super s) ->
    children (sh_arena s) p !! i = Some x -> spath s p q -> spath s x (q ++ [i]).

Lemma pos_in_lookup (a : arena tdata) p c i :
  wf a -> children a p !! i = Some c -> pos_in a p c = i.
Proof.
  intros W H. unfold pos_in. erewrite index_of_nodup; [done|apply W|done].
Qed.

Lemma spath_loop s x q : shwf s -> spath s x q ->
  forall l acc f, chain (sh_arena s) x l -> length l < f -> path_loop f s x acc = Val (q ++ acc).
Proof.
  intros SW Hq. pose proof (sw_wf _ SW) as W.
  induction Hq as [x sl k Hp Hk|x p q i Hp Hns Hi Hq IH]; intros l acc f Hc Hf.
  - destruct f as [|f]; [lia|]. simpl. rewrite Hp.
    apply elem_of_list_lookup_2 in Hk as Hin. apply (wf_pc _ W) in Hin. rewrite Hin, Nat.eqb_refl.
    by rewrite (pos_in_lookup _ _ _ _ W Hk).
  - destruct f as [|f]; [lia|]. simpl. rewrite Hp.
    assert ((match parent (sh_arena s) p with Some g => Nat.eqb g (sh_super s) | None => false end) = false) as ->.
    { destruct (parent (sh_arena s) p) as [g|] eqn:E; [|done]. apply Nat.eqb_neq. congruence. }
    rewrite (pos_in_lookup _ _ _ _ W Hi).
    inversion Hc as [|? p' l' Hp' Hc']; subst; [congruence|]. assert (p' = p) as -> by congruence.
    rewrite (IH l' (i :: acc) f Hc'); [|simpl in Hf; lia]. by rewrite <- app_assoc.
Qed.

Lemma spath_compute s x q : shwf s -> spath s x q -> compute_path s x = Val q.
Proof.
  intros SW Hq. destruct (wf_chain _ (sw_wf _ SW) x) as [l Hc]. unfold compute_path.
  rewrite (spath_loop s x q SW Hq l [] _ Hc), app_nil_r; [done|].
  pose proof (chain_length _ _ _ (sw_wf _ SW) Hc). unfold chain_fuel. lia.
Qed.

Lemma spath_length s x q : spath s x q -> q <> [].
Proof. intros [? ? ? ?|? ? ? ? ? ? ?]; [done|]. by destruct q0. Qed.

(** Paths survive changes elsewhere. *)
Lemma spath_keep s s' x q :
  shwf s -> sh_super s' = sh_super s ->
  (forall k sl, children (sh_arena s) (sh_super s) !! k = Some sl ->
     children (sh_arena s') (sh_super s) !! k = Some sl) ->
  (forall y, above (sh_arena s) y x -> y <> sh_super s -> parent (sh_arena s) y <> Some (sh_super s) ->
     parent (sh_arena s') y = parent (sh_arena s) y) ->
  (forall p, above (sh_arena s) p x -> p <> sh_super s -> parent (sh_arena s) p <> Some (sh_super s) ->
     parent (sh_arena s') p <> Some (sh_super s)) ->
  (forall p y i, above (sh_arena s) y x -> p <> sh_super s -> parent (sh_arena s) p <> Some (sh_super s) ->
     children (sh_arena s) p !! i = Some y -> children (sh_arena s') p !! i = Some y) ->
  spath s x q -> spath s' x q.
Proof.
  intros SW Hsu Hsl Hpa Hnt Hch Hq. pose proof (sw_wf _ SW) as W.
  induction Hq as [x sl k Hp Hk|x p q i Hp Hns Hi Hq IH].
  - pose proof Hk as Hin. apply elem_of_list_lookup_2 in Hin. apply (wf_pc _ W) in Hin.
    eapply spath_root; [|by rewrite Hsu; apply Hsl].
    rewrite Hpa; [done|by apply above_refl| |].
    + intros ->. rewrite (sw_top _ SW) in Hp. done.
    + rewrite Hp. intros [= ->]. rewrite (sw_top _ SW) in Hin. done.
  - assert (above (sh_arena s) p x) as Hpx by (eapply above_parent; [by apply above_refl|done]).
    assert (p <> sh_super s) as Hpsu.
    { intros ->. inversion Hq as [? ? ? Hp'|? ? ? ? Hp']; subst; rewrite (sw_top _ SW) in Hp'; done. }
    assert (x <> sh_super s) as Hxsu. { intros ->. rewrite (sw_top _ SW) in Hp. done. }
    eapply spath_step.
    + rewrite Hpa; [done|by apply above_refl|done|]. rewrite Hp. congruence.
    + rewrite Hsu. apply Hnt; done.
    + apply Hch; [by apply above_refl|done|done|done].
    + apply IH.
      * intros y Hy. apply Hpa. by eapply above_trans.
      * intros y Hy. apply Hnt. by eapply above_trans.
      * intros p' y i' Hy. apply Hch. by eapply above_trans.
Qed.
