(** C46: the arena with sibling links behaves as the arena with children lists. *)
From Verif Require Import Base Arena Links ArenaProofs ArenaOps LinkProofs.
Local Open Scope string_scope.

(** C46: any program of safe calls ([call_ok]: nodes exist, siblings have a
    parent, no insertion below an own descendant), started on an empty arena,
    either panics on both representations or ends on both, and then every query
    gives the same answer: data, parent, siblings, children in both directions. *)
Theorem links_faithful : forall (D : Type) (cs : list (tree_call D)),
  safe_run [] cs ->
  (links_run [] cs = Panic /\ arena_run [] cs = Panic) \/
  exists L a, links_run [] cs = Val L /\ arena_run [] cs = Val a /\ wf a /\ length L = length a /\
    (forall d, snd (l_new_node L d) = snd (new_node a d)) /\
    forall i,
      l_data L i = data a i /\ l_parent L i = parent a i /\
      l_children L i = Some (children a i) /\ l_children_rev L i = Some (reverse (children a i)) /\
      l_first L i = head (children a i) /\ l_last L i = last (children a i) /\
      l_prev L i = previous_sibling a i /\ l_next L i = next_sibling a i.
Proof.
  intros D cs Hs.
  assert (wf ([] : arena D)) as W.
  { split; [|intros; apply NoDup_nil_2|intros i; exists []; by constructor].
    intros i p. split; [done|]. intros H. inversion H. }
  destruct (run_repr cs [] [] W repr_nil Hs) as [S Wf].
  destruct (arena_run [] cs) as [a|e| |]; cbn [same_outcome] in S; [|done| |done].
  - right. destruct S as (L & E & R). specialize (Wf a eq_refl). exists L, a.
    split_and!; [done..|by apply R| |].
    { intros d. cbn. by apply R. }
    intros i.
    split_and!; [apply R|apply R|by apply repr_children|by apply repr_children_rev|apply R..].
  - by left.
Qed.
Print Assumptions links_faithful.

(** A consequence without the children lists: in the links themselves, previous
    and next are inverse, siblings share a parent, and walking back gives the
    children in reverse. *)
Theorem links_consistent : forall (D : Type) (cs : list (tree_call D)) L,
  safe_run [] cs -> links_run [] cs = Val L ->
  (forall x y, l_next L x = Some y <-> l_prev L y = Some x) /\
  (forall x y, l_next L x = Some y -> l_parent L x = l_parent L y /\ l_parent L x <> None) /\
  (forall i, exists l, l_children L i = Some l /\ l_children_rev L i = Some (reverse l) /\ NoDup l /\
                       forall x, l_parent L x = Some i <-> x ∈ l).
Proof.
  intros D cs L Hs E. destruct (links_faithful D cs Hs) as [[E' _]|(L' & a & E' & _ & W & _ & _ & H)]; [congruence|].
  rewrite E in E'. injection E' as <-.
  assert (forall x y, next_sibling a x = Some y <->
    exists p k, parent a x = Some p /\ children a p !! k = Some x /\ children a p !! S k = Some y) as Hn.
  { intros x y. unfold next_sibling. split.
    - destruct (parent a x) as [p|] eqn:Ep; [|done]. intros Hy. assert (x ∈ children a p) as Hx by (by apply W).
      apply elem_of_list_lookup in Hx as [k Hk]. rewrite (next_in_lookup _ k x) in Hy; [|apply W|done]. eauto.
    - intros (p & k & -> & Hx & Hy). rewrite (next_in_lookup _ k x); [done|apply W|done]. }
  assert (forall x y, previous_sibling a y = Some x <->
    exists p k, parent a y = Some p /\ children a p !! k = Some x /\ children a p !! S k = Some y) as Hp.
  { intros x y. unfold previous_sibling. split.
    - destruct (parent a y) as [p|] eqn:Ep; [|done]. intros Hy. assert (y ∈ children a p) as Hx by (by apply W).
      apply elem_of_list_lookup in Hx as [[|k] Hk].
      + by rewrite prev_in_first in Hy; [|apply W|].
      + rewrite (prev_in_lookup _ k y) in Hy; [|apply W|done]. eauto.
    - intros (p & k & -> & Hx & Hy). rewrite (prev_in_lookup _ k y); [done|apply W|done]. }
  split; [|split].
  - intros x y. destruct (H x) as (_ & _ & _ & _ & _ & _ & _ & ->). destruct (H y) as (_ & _ & _ & _ & _ & _ & -> & _).
    rewrite Hn, Hp. split; intros (p & k & Hpa & Hx & Hy); exists p, k; split_and!; try done;
      apply W; by eapply elem_of_list_lookup_2.
  - intros x y. destruct (H x) as (_ & -> & _ & _ & _ & _ & _ & ->). destruct (H y) as (_ & -> & _).
    rewrite Hn. intros (p & k & Hpa & Hx & Hy). rewrite Hpa. split; [|done]. symmetry.
    apply W. by eapply elem_of_list_lookup_2.
  - intros i. exists (children a i). destruct (H i) as (_ & _ & -> & -> & _). split_and!; [done..|apply W|].
    intros x. destruct (H x) as (_ & -> & _). apply W.
Qed.
Print Assumptions links_consistent.

Definition links_calls : list (tree_call string) :=
  [TNew "root"; TNew "a"; TNew "b"; TNew "c"; TNew "d"; TAppend 0 1; TAppend 0 2; TBefore 1 3; TAfter 1 4;
   TDetach 2; TBefore 3 2; TAfter 4 3; TAppend 1 4; TSet 4 "e"].
Example links_example : safe_run [] links_calls /\
  exists L, links_run [] links_calls = Val L /\ l_children L 0 = Some [2; 1; 3] /\ l_children L 1 = Some [4] /\
            l_next L 2 = Some 1 /\ l_prev L 3 = Some 1 /\ l_data L 4 = Some "e".
Proof.
  split; [|eexists; vm_compute; eauto 10].
  assert (forall (a : arena string) n q l, ancestors (S (length a)) a q = Some l -> n <> q -> n ∉ l -> ~ above a n q) as Hna.
  { intros a n q l Hl H1 H2 (k & Hk & Hn). apply ancestors_some in Hl. rewrite (chain_det _ _ _ _ Hl Hk) in H2. tauto. }
  unfold links_calls. cbn. repeat split; try lia.
  all: try (eexists; split; [reflexivity|]; right; eapply Hna; [reflexivity|lia|]; apply not_elem_of_nil).
Qed.

(** A panic of both. *)
Example links_example_panic :
  let cs := [TNew "root"; TNew "a"; TNew "b"; TAppend 0 1; TAppend 1 2; TBefore 2 1] in
  safe_run [] cs /\ links_run [] cs = Panic.
Proof.
  cbn zeta. split; [|vm_compute; reflexivity]. cbn. repeat split; try lia. exists 1. auto.
Qed.

(** Finding (limit of the list model): beside a node without parent, insertion
    makes siblings without a parent; [children] of no node shows them. *)
Theorem orphan_siblings_refuted : exists (cs : list (tree_call string)) L a,
  links_run [] cs = Val L /\ arena_run [] cs = Val a /\ l_next L 1 = Some 0 /\ next_sibling a 1 = None.
Proof. exists [TNew "a"; TNew "b"; TBefore 0 1]. eexists _, _. vm_compute. auto. Qed.
Print Assumptions orphan_siblings_refuted.
