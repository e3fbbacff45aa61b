(** Two arenas that hold the same nodes under different names, and what the
    appliers do to them: the same. *)
From Verif Require Import Base Arena Dom Browser ArenaProofs ArenaOps TreeProofs DomTree BrowserProofs RoundProofs MirrorProofs.

(** ** Lists and outcomes *)

Section Lists.
  Context {R : nat -> nat -> Prop}.
  Hypothesis Rf : forall i j j', R i j -> R i j' -> j = j'.
  Hypothesis Ri : forall i i' j, R i j -> R i' j -> i = i'.

  Lemma rel_eqb i j i' j' : R i j -> R i' j' -> Nat.eqb i i' = Nat.eqb j j'.
  Proof using Rf Ri.
    intros H1 H2. destruct (Nat.eqb_spec i i') as [->|E], (Nat.eqb_spec j j') as [->|E']; try done.
    - destruct E'. by eapply Rf. - destruct E. by eapply Ri.
  Qed.

  Lemma rel_remove i j l l' : R i j -> Forall2 R l l' -> Forall2 R (remove_id i l) (remove_id j l').
  Proof using Rf Ri.
    intros Hij Hl. induction Hl as [|x y l l' Hxy Hl IH]; cbn; [constructor|].
    rewrite (rel_eqb x y i j Hxy Hij). destruct (Nat.eqb y j); [done|]. by constructor.
  Qed.

  Lemma rel_insert_before s s' n n' l l' : R s s' -> R n n' -> Forall2 R l l' ->
    Forall2 R (insert_before_list s n l) (insert_before_list s' n' l').
  Proof using Rf Ri.
    intros Hs Hn Hl. induction Hl as [|x y l l' Hxy Hl IH]; cbn; [constructor|].
    rewrite (rel_eqb x y s s' Hxy Hs). destruct (Nat.eqb y s'); by repeat constructor.
  Qed.

  Lemma rel_existsb i j l l' : R i j -> Forall2 R l l' -> existsb (Nat.eqb i) l = existsb (Nat.eqb j) l'.
  Proof using Rf Ri.
    intros Hij Hl. induction Hl as [|x y l l' Hxy Hl IH]; cbn; [done|].
    by rewrite IH, (rel_eqb i j x y).
  Qed.
End Lists.

Lemma Forall2_lookup_opt {A B} (P : A -> B -> Prop) l l' k : Forall2 P l l' -> option_Forall2 P (l !! k) (l' !! k).
Proof. intros Hl. revert k. induction Hl; intros [|k]; cbn; [constructor|constructor|by constructor|done]. Qed.

Lemma Forall2_mono {A B} (P Q : A -> B -> Prop) l l' : (forall x y, P x y -> Q x y) -> Forall2 P l l' -> Forall2 Q l l'.
Proof. intros HP Hl. eapply Forall2_impl; [exact Hl|done]. Qed.

Lemma option_mono {A B} (P Q : A -> B -> Prop) o o' : (forall x y, P x y -> Q x y) -> option_Forall2 P o o' -> option_Forall2 Q o o'.
Proof. intros HP [x y Hxy|]; constructor; auto. Qed.

(** The same outcome, with related values. *)
Definition orel {A B} (P : A -> B -> Prop) (x : outcome A) (y : outcome B) : Prop :=
  match x, y with
  | Val a, Val b => P a b
  | Fail e, Fail e' => e = e'
  | Panic, Panic => True
  | Diverge, Diverge => True
  | _, _ => False
  end.

Lemma orel_bind {A B C D} (P : A -> B -> Prop) (Q : C -> D -> Prop) x y f g :
  orel P x y -> (forall a b, P a b -> orel Q (f a) (g b)) -> orel Q (obind x f) (obind y g).
Proof. destruct x, y; cbn; auto; done. Qed.

Lemma orel_mono {A B} (P Q : A -> B -> Prop) x y : (forall a b, P a b -> Q a b) -> orel P x y -> orel Q x y.
Proof. destruct x, y; cbn; auto. Qed.

(** ** Arenas *)

Definition nrel := nat -> nat -> Prop.
Definition sub (R R' : nrel) : Prop := forall i j, R i j -> R' i j.

Record iso (R : nrel) (a b : arena dnode) : Prop := {
  is_lt : forall i j, R i j -> i < length a /\ j < length b;
  is_fun : forall i j j', R i j -> R i j' -> j = j';
  is_inj : forall i i' j, R i j -> R i' j -> i = i';
  is_kind : forall i j, R i j -> node_kind a i = node_kind b j;
  is_elem : forall i j t l, R i j -> node_kind a i = Some (NElem t l) -> data a i = data b j;
  is_children : forall i j, R i j -> Forall2 R (children a i) (children b j);
  is_parent : forall i j, R i j -> option_Forall2 R (parent a i) (parent b j)
}.

Lemma node_kind_data a i k : data a i = k -> node_kind a i = match k with Some d => Some (d_kind d) | None => None end.
Proof. unfold node_kind. by intros ->. Qed.

Section Iso.
  Implicit Types (a b : arena dnode) (R : nrel).

  Lemma iso_eqb R a b i j i' j' : iso R a b -> R i j -> R i' j' -> Nat.eqb i i' = Nat.eqb j j'.
  Proof. intros I. apply rel_eqb; [apply (is_fun _ _ _ I)|apply (is_inj _ _ _ I)]. Qed.

  Lemma iso_set_children R a b i j cs cs' : iso R a b -> R i j -> Forall2 R cs cs' ->
    iso R (set_children a i cs) (set_children b j cs').
  Proof.
    intros I Hij Hcs. destruct (is_lt _ _ _ I i j Hij) as [Li Lj].
    constructor.
    - intros x y Hxy. rewrite !length_set_children. by apply (is_lt _ _ _ I).
    - apply (is_fun _ _ _ I).
    - apply (is_inj _ _ _ I).
    - intros x y Hxy. unfold node_kind. rewrite !data_set_children. by apply (is_kind _ _ _ I).
    - intros x y t l Hxy. unfold node_kind. rewrite !data_set_children. by apply (is_elem _ _ _ I).
    - intros x y Hxy. rewrite !children_set_children by done. rewrite (iso_eqb R a b x y i j I Hxy Hij).
      destruct (Nat.eqb y j); [done|]. by apply (is_children _ _ _ I).
    - intros x y Hxy. rewrite !parent_set_children. by apply (is_parent _ _ _ I).
  Qed.

  Lemma iso_set_parent R a b i j p p' : iso R a b -> R i j -> option_Forall2 R p p' ->
    iso R (set_parent a i p) (set_parent b j p').
  Proof.
    intros I Hij Hp. destruct (is_lt _ _ _ I i j Hij) as [Li Lj].
    constructor.
    - intros x y Hxy. rewrite !length_set_parent. by apply (is_lt _ _ _ I).
    - apply (is_fun _ _ _ I).
    - apply (is_inj _ _ _ I).
    - intros x y Hxy. unfold node_kind. rewrite !data_set_parent. by apply (is_kind _ _ _ I).
    - intros x y t l Hxy. unfold node_kind. rewrite !data_set_parent. by apply (is_elem _ _ _ I).
    - intros x y Hxy. rewrite !children_set_parent. by apply (is_children _ _ _ I).
    - intros x y Hxy. rewrite !parent_set_parent by done. rewrite (iso_eqb R a b x y i j I Hxy Hij).
      destruct (Nat.eqb y j); [done|]. by apply (is_parent _ _ _ I).
  Qed.

  Lemma iso_set_kind R a b i j k : iso R a b -> R i j ->
    (forall t l, k = NElem t l -> exists t' l', node_kind a i = Some (NElem t' l')) ->
    iso R (set_kind a i k) (set_kind b j k).
  Proof.
    intros I Hij He. destruct (is_lt _ _ _ I i j Hij) as [Li Lj].
    destruct (data_some a i Li) as [d Ed]. destruct (data_some b j Lj) as [d' Ed'].
    unfold set_kind. rewrite Ed, Ed'. constructor.
    - intros x y Hxy. rewrite !length_set_data. by apply (is_lt _ _ _ I).
    - apply (is_fun _ _ _ I).
    - apply (is_inj _ _ _ I).
    - intros x y Hxy. unfold node_kind. rewrite !data_set_data by done. rewrite (iso_eqb R a b x y i j I Hxy Hij).
      destruct (Nat.eqb y j); [done|]. by apply (is_kind _ _ _ I).
    - intros x y t l Hxy. unfold node_kind. rewrite !data_set_data by done. rewrite (iso_eqb R a b x y i j I Hxy Hij).
      destruct (Nat.eqb y j); [|by apply (is_elem _ _ _ I)]. cbn. intros [= ->].
      destruct (He t l eq_refl) as (t' & l' & Ek). pose proof (is_elem _ _ _ I i j t' l' Hij Ek). congruence.
    - intros x y Hxy. rewrite !children_set_data. by apply (is_children _ _ _ I).
    - intros x y Hxy. rewrite !parent_set_data. by apply (is_parent _ _ _ I).
  Qed.

  (** A new node in both. *)
  Definition radd R (i j : nat) : nrel := fun x y => R x y \/ (x = i /\ y = j).

  Lemma radd_sub R i j : sub R (radd R i j).
  Proof. intros x y H. by left. Qed.

  Lemma iso_new R a b d : iso R a b ->
    iso (radd R (length a) (length b)) (fst (new_node a d)) (fst (new_node b d)).
  Proof.
    intros I. pose proof (is_lt _ _ _ I) as HL. constructor.
    - intros x y [Hxy|[-> ->]]; rewrite !length_new; [|lia]. apply HL in Hxy. lia.
    - intros x y y' [H1|[-> ->]] [H2|[E2 ->]]; try done.
      + by apply (is_fun _ _ _ I x).
      + subst. apply HL in H1. lia.
      + apply HL in H2. lia.
    - intros x x' y [H1|[-> ->]] [H2|[-> E2]]; try done.
      + by apply (is_inj _ _ _ I x x' y).
      + subst. apply HL in H1. lia.
      + apply HL in H2. lia.
    - intros x y [Hxy|[-> ->]]; unfold node_kind; rewrite !data_new; [|by rewrite !Nat.eqb_refl].
      destruct (HL x y Hxy). destruct (Nat.eqb_spec x (length a)); [lia|].
      destruct (Nat.eqb_spec y (length b)); [lia|]. by apply (is_kind _ _ _ I).
    - intros x y t l [Hxy|[-> ->]]; unfold node_kind; rewrite !data_new; [|by rewrite !Nat.eqb_refl].
      destruct (HL x y Hxy). destruct (Nat.eqb_spec x (length a)); [lia|].
      destruct (Nat.eqb_spec y (length b)); [lia|]. by apply (is_elem _ _ _ I).
    - intros x y [Hxy|[-> ->]]; rewrite !children_new.
      + eapply Forall2_mono; [apply radd_sub|]. by apply (is_children _ _ _ I).
      + rewrite !children_ge by done. constructor.
    - intros x y [Hxy|[-> ->]]; rewrite !parent_new.
      + eapply option_mono; [apply radd_sub|]. by apply (is_parent _ _ _ I).
      + rewrite !parent_ge by done. constructor.
  Qed.

  Lemma iso_detach R a b i j : iso R a b -> R i j -> iso R (detach a i) (detach b j).
  Proof.
    intros I Hij. unfold detach. destruct (is_parent _ _ _ I i j Hij) as [p q Hpq|]; [|done].
    apply iso_set_parent; [|done|constructor]. apply iso_set_children; [done..|].
    apply rel_remove; [apply (is_fun _ _ _ I)|apply (is_inj _ _ _ I)|done|]. by apply (is_children _ _ _ I).
  Qed.

  (** Walking up. *)
  Lemma chain_bound a i l : chain a i l -> length l <= length a.
  Proof.
    intros Hc. pose proof (chain_nodup a i l Hc) as ND.
    assert (forall x, x ∈ removelast (i :: l) -> x < length a) as HL.
    { clear ND. induction Hc as [i Hp|i p l Hp Hc IH]; intros x Hx; [by apply elem_of_nil in Hx|].
      change (removelast (i :: p :: l)) with (i :: removelast (p :: l)) in Hx.
      apply elem_of_cons in Hx as [->|Hx]; [by eapply parent_lt|by apply IH]. }
    assert (NoDup (removelast (i :: l))) as ND'.
    { destruct (exists_last (l := i :: l)) as (l1 & x & E); [done|]. rewrite E in *.
      rewrite removelast_last. by apply NoDup_app in ND as [? _]. }
    pose proof (nodup_lt_length _ _ ND' HL) as B. revert B.
    destruct (exists_last (l := i :: l)) as (l1 & x & E); [done|]. rewrite E, removelast_last.
    apply (f_equal (@length nat)) in E. rewrite app_length in E. cbn in E. lia.
  Qed.

  Lemma ancestors_chain_iff a i l : ancestors (chain_fuel a) a i = Some l <-> chain a i l.
  Proof.
    split; [apply ancestors_some|]. intros Hc. apply ancestors_chain; [done|].
    pose proof (chain_bound a i l Hc). unfold chain_fuel. lia.
  Qed.

  Lemma iso_chain R a b i l : iso R a b -> chain a i l -> forall j, R i j -> exists l', chain b j l' /\ Forall2 R l l'.
  Proof.
    intros I Hc. induction Hc as [i Hp|i p l Hp Hc IH]; intros j Hij; pose proof (is_parent _ _ _ I i j Hij) as HP;
      rewrite Hp in HP.
    - inversion HP as [|E1 E2]. exists []. split; [by constructor|constructor].
    - inversion HP as [p0 q Hpq E1 E2|]. subst p0. destruct (IH q Hpq) as (l' & Hc' & Hl).
      exists (q :: l'). split; [by econstructor|by constructor].
  Qed.

  Lemma iso_flip R a b : iso R a b -> iso (fun j i => R i j) b a.
  Proof.
    intros I. constructor.
    - intros i j H. apply (is_lt _ _ _ I) in H. tauto.
    - intros i j j' H1 H2. by apply (is_inj _ _ _ I j j' i).
    - intros i i' j H1 H2. by apply (is_fun _ _ _ I j).
    - intros i j H. symmetry. by apply (is_kind _ _ _ I).
    - intros i j t l H Hk. symmetry. apply (is_elem _ _ _ I j i t l H). by rewrite (is_kind _ _ _ I j i H).
    - intros i j H. apply Forall2_flip. by apply (is_children _ _ _ I).
    - intros i j H. destruct (is_parent _ _ _ I j i H); by constructor.
  Qed.

  Lemma iso_is_ancestor R a b c c' p p' : iso R a b -> R c c' -> R p p' -> is_ancestor a c p = is_ancestor b c' p'.
  Proof.
    intros I Hc Hp. unfold is_ancestor.
    destruct (ancestors (chain_fuel a) a p) as [l|] eqn:E.
    - apply ancestors_chain_iff in E. destruct (iso_chain R a b p l I E p' Hp) as (l' & E' & Hl).
      apply ancestors_chain_iff in E'. rewrite E'. f_equal.
      apply (rel_existsb (is_fun _ _ _ I) (is_inj _ _ _ I)); done.
    - destruct (ancestors (chain_fuel b) b p') as [l'|] eqn:E'; [|done].
      apply ancestors_chain_iff in E'.
      destruct (iso_chain _ b a p' l' (iso_flip _ _ _ I) E' p Hp) as (l & E2 & _).
      apply ancestors_chain_iff in E2. congruence.
  Qed.

  Lemma iso_append R a b p p' c c' : iso R a b -> R p p' -> R c c' ->
    orel (iso R) (append a p c) (append b p' c').
  Proof.
    intros I Hp Hc. unfold append. rewrite (iso_eqb R a b p p' c c' I Hp Hc).
    destruct (Nat.eqb p' c'); [done|]. rewrite (iso_is_ancestor R a b c c' p p' I Hc Hp).
    destruct (is_ancestor b c' p') as [[]|]; [done| |done]. cbn.
    pose proof (iso_detach R a b c c' I Hc) as I1.
    apply iso_set_parent; [|done|by constructor]. apply iso_set_children; [done..|].
    apply Forall2_app; [by apply (is_children _ _ _ I1)|by repeat constructor].
  Qed.

  Lemma iso_insert_before R a b s s' n n' : iso R a b -> R s s' -> R n n' ->
    orel (iso R) (insert_before a s n) (insert_before b s' n').
  Proof.
    intros I Hs Hn. unfold insert_before. rewrite (iso_eqb R a b s s' n n' I Hs Hn).
    destruct (Nat.eqb s' n'); [done|]. pose proof (iso_detach R a b n n' I Hn) as I1. cbv zeta.
    destruct (is_parent _ _ _ I1 s s' Hs) as [p p' Hp|]; [|done].
    rewrite (iso_eqb R a b p p' n n' I Hp Hn). destruct (Nat.eqb p' n'); [done|]. cbn.
    apply iso_set_parent; [|done|by constructor]. apply iso_set_children; [done..|].
    apply rel_insert_before; [apply (is_fun _ _ _ I)|apply (is_inj _ _ _ I)|done|done|].
    by apply (is_children _ _ _ I1).
  Qed.

  Lemma iso_navigate R a b p : iso R a b -> forall i j, R i j -> orel R (navigate a i p) (navigate b j p).
  Proof.
    intros I. induction p as [|k p IH]; intros i j Hij; cbn [navigate]; [done|].
    destruct (Forall2_lookup_opt _ _ _ k (is_children _ _ _ I i j Hij)) as [x y Hxy|]; [by apply IH|done].
  Qed.

  (** Growing relations. *)
  Definition grown R (x y : arena dnode) : Prop := exists R', sub R R' /\ iso R' x y.
  Definition grown_node R (x y : arena dnode * nat) : Prop :=
    exists R', sub R R' /\ iso R' (fst x) (fst y) /\ R' (snd x) (snd y).

  Lemma sub_refl R : sub R R. Proof. by intros i j. Qed.
  Lemma sub_trans R1 R2 R3 : sub R1 R2 -> sub R2 R3 -> sub R1 R3. Proof. intros H1 H2 i j H. by apply H2, H1. Qed.

  Lemma grown_self R a b : iso R a b -> grown R a b.
  Proof. intros I. exists R. split; [apply sub_refl|done]. Qed.
  Lemma grown_sub R R' x y : sub R R' -> grown R' x y -> grown R x y.
  Proof. intros H (R2 & H2 & I). exists R2. split; [by eapply sub_trans|done]. Qed.
  Lemma grown_node_sub R R' x y : sub R R' -> grown_node R' x y -> grown_node R x y.
  Proof. intros H (R2 & H2 & I). exists R2. split; [by eapply sub_trans|done]. Qed.
  Lemma orel_grown R x y : orel (iso R) x y -> orel (grown R) x y.
  Proof. apply orel_mono. intros. by apply grown_self. Qed.

  Lemma iso_new_node R a b d : iso R a b -> grown_node R (new_node a d) (new_node b d).
  Proof.
    intros I. exists (radd R (length a) (length b)). split; [apply radd_sub|].
    split; [by apply iso_new|]. right. done.
  Qed.

  Lemma iso_fill_gaps R n d : forall a b p p' , iso R a b -> R p p' ->
    orel (grown R) (fill_gaps n d a p) (fill_gaps n d b p').
  Proof.
    revert R. induction n as [|n IH]; intros R a b p p' I Hp; cbn [fill_gaps]; [by apply grown_self|].
    pose proof (iso_new R a b d I) as I1. unfold new_node in I1 |- *. cbn [fst] in I1.
    eapply orel_bind; [apply (iso_append _ _ _ _ _ _ _ I1); [by left|by right]|].
    intros x y I2. eapply orel_mono; [|apply (IH _ _ _ p p' I2); by left].
    intros u v. apply grown_sub, radd_sub.
  Qed.

  Lemma iso_insert_at_position R a b p p' pos n n' : iso R a b -> R p p' -> R n n' ->
    orel (grown R) (insert_at_position a p pos n) (insert_at_position b p' pos n').
  Proof.
    intros I Hp Hn. unfold insert_at_position.
    rewrite (Forall2_length _ _ _ (is_children _ _ _ I p p' Hp)).
    eapply orel_bind; [by apply iso_fill_gaps|]. intros x y (R' & HR & I').
    destruct (Forall2_lookup_opt _ _ _ pos (is_children _ _ _ I' p p' (HR _ _ Hp))) as [s s' Hs|].
    - eapply orel_mono; [|apply (iso_insert_before _ _ _ _ _ _ _ I' Hs (HR _ _ Hn))].
      intros u v Iu. exists R'. done.
    - eapply orel_mono; [|apply (iso_append _ _ _ _ _ _ _ I' (HR _ _ Hp) (HR _ _ Hn))].
      intros u v Iu. exists R'. done.
  Qed.

  Lemma iso_replace_by_empty R a b n n' : iso R a b -> R n n' ->
    orel (grown R) (replace_by_empty a n) (replace_by_empty b n').
  Proof.
    intros I Hn. unfold replace_by_empty. pose proof (iso_new R a b (text_node "") I) as I1.
    unfold new_node in I1 |- *. cbn [fst] in I1.
    eapply orel_bind; [apply (iso_insert_before _ _ _ n n' _ _ I1); [by left|by right]|].
    intros x y I2. cbn. exists (radd R (length a) (length b)). split; [apply radd_sub|].
    apply iso_detach; [done|by left].
  Qed.

  Lemma iso_detach_all R l l' : Forall2 R l l' -> forall a b, iso R a b -> iso R (detach_all a l) (detach_all b l').
  Proof.
    intros Hl. induction Hl as [|x y l l' Hxy Hl IH]; intros a b I; [done|]. cbn. apply IH. by apply iso_detach.
  Qed.

  (** Making content. *)
  Lemma iso_clone t : forall R a b, iso R a b -> orel (grown_node R) (clone_tree a t) (clone_tree b t).
  Proof.
    induction t as [s|s|tag ns ats cs IH] using htree_ind'; intros R a b I; cbn [clone_tree];
      [by apply iso_new_node|by apply iso_new_node|].
    pose proof (iso_new R a b (mkD (NElem tag ats) ns) I) as I1. unfold new_node in I1 |- *. cbn [fst] in I1.
    set (R1 := radd R (length a) (length b)) in *.
    assert (R1 (length a) (length b)) as Hn by (by right).
    revert I1 Hn. assert (sub R R1) as HS by apply radd_sub. revert HS.
    generalize R1, (a ++ [mkNode (mkD (NElem tag ats) ns) None []]),
      (b ++ [mkNode (mkD (NElem tag ats) ns) None []]), (length a), (length b). clear I R1 a b.
    induction cs as [|c cs IHcs]; intros R1 a b n n' HS I Hn; cbn.
    - exists R1. done.
    - pose proof (IH c (elem_of_list_here _ _) R1 a b I) as Hc.
      destruct (clone_tree a c) as [[a1 i]| | |], (clone_tree b c) as [[b1 j]| | |]; try done.
      destruct Hc as (R2 & HS2 & I2 & Hij). cbn in *.
      pose proof (iso_append R2 a1 b1 n n' i j I2 (HS2 _ _ Hn) Hij) as Hap.
      destruct (append a1 n i) as [a2| | |], (append b1 n' j) as [b2| | |]; try done. cbn in *.
      apply (IHcs (fun c' H' => IH c' (elem_of_list_further _ _ _ H')) R2); [|done|auto].
      by eapply sub_trans.
  Qed.

  Lemma iso_clone_under ts : forall R a b n n', iso R a b -> R n n' ->
    orel (grown R) (clone_under a n ts) (clone_under b n' ts).
  Proof.
    induction ts as [|t ts IH]; intros R a b n n' I Hn; cbn [clone_under]; [by apply grown_self|].
    eapply orel_bind; [by apply (iso_clone t R)|]. intros [a1 i] [b1 j] (R1 & HS & I1 & Hij). cbn in I1, Hij.
    eapply orel_bind; [by apply (iso_append R1 a1 b1 n n' i j I1); auto|]. intros a2 b2 I2.
    eapply orel_mono; [|by apply (IH R1 a2 b2 n n' I2); auto]. intros x y. by apply grown_sub.
  Qed.

  Lemma iso_create c : forall R a b, iso R a b -> orel (grown_node R) (create_content a c) (create_content b c).
  Proof.
    induction c as [s|s|tag ats cs IH] using icontent_ind'; intros R a b I; cbn [create_content];
      [by apply iso_new_node|by apply iso_new_node|].
    pose proof (iso_new R a b (elem tag ats NsHtml) I) as I1. unfold new_node in I1 |- *. cbn [fst] in I1.
    set (R1 := radd R (length a) (length b)) in *.
    assert (R1 (length a) (length b)) as Hn by (by right).
    revert I1 Hn. assert (sub R R1) as HS by apply radd_sub. revert HS.
    generalize R1, (a ++ [mkNode (elem tag ats NsHtml) None []]),
      (b ++ [mkNode (elem tag ats NsHtml) None []]), (length a), (length b). clear I R1 a b.
    induction cs as [|c cs IHcs]; intros R1 a b n n' HS I Hn; cbn.
    - exists R1. done.
    - pose proof (IH c (elem_of_list_here _ _) R1 a b I) as Hc.
      destruct (create_content a c) as [[a1 i]| | |], (create_content b c) as [[b1 j]| | |]; try done.
      destruct Hc as (R2 & HS2 & I2 & Hij). cbn in *.
      pose proof (iso_append R2 a1 b1 n n' i j I2 (HS2 _ _ Hn) Hij) as Hap.
      destruct (append a1 n i) as [a2| | |], (append b1 n' j) as [b2| | |]; try done. cbn in *.
      apply (IHcs (fun c' H' => IH c' (elem_of_list_further _ _ _ H')) R2); [|done|auto].
      by eapply sub_trans.
  Qed.

  Lemma iso_creates cs : forall R a b n n', iso R a b -> R n n' ->
    orel (grown R) (create_contents a n cs) (create_contents b n' cs).
  Proof.
    induction cs as [|c cs IH]; intros R a b n n' I Hn; cbn [create_contents]; [by apply grown_self|].
    eapply orel_bind; [by apply (iso_create c R)|]. intros [a1 i] [b1 j] (R1 & HS & I1 & Hij). cbn in I1, Hij.
    eapply orel_bind; [by apply (iso_append R1 a1 b1 n n' i j I1); auto|]. intros a2 b2 I2.
    eapply orel_mono; [|by apply (IH R1 a2 b2 n n' I2); auto]. intros x y. by apply grown_sub.
  Qed.
End Iso.

(** ** The native applier *)

Definition srel (R : nrel) (sl sl' : slots) : Prop := forall k, option_Forall2 R (slot_get sl k) (slot_get sl' k).
Record strel (R : nrel) (s s' : pstate) : Prop := {
  st_iso : iso R (fst s) (fst s');
  st_slots : srel R (snd s) (snd s')
}.
(** The same outcome and related states. *)
Definition presrel (R : nrel) (x y : presult) : Prop :=
  snd x = snd y /\ exists R', sub R R' /\ strel R' (fst x) (fst y).

Lemma srel_sub R R' sl sl' : sub R R' -> srel R sl sl' -> srel R' sl sl'.
Proof. intros H HS k. eapply option_mono; [|apply HS]. apply H. Qed.
Lemma srel_set R sl sl' k n n' : srel R sl sl' -> R n n' -> srel R (slot_set sl k n) (slot_set sl' k n').
Proof. intros HS Hn j. cbn. destruct (Nat.eqb k j); [by constructor|apply HS]. Qed.
Lemma slot_take_get sl k : forall j, slot_get (slot_take sl k) j = if Nat.eqb j k then None else slot_get sl j.
Proof.
  intros j. destruct (Nat.eqb_spec j k) as [->|E]; [by apply slot_take_same|by apply slot_take_other].
Qed.
Lemma srel_take R sl sl' k : srel R sl sl' -> srel R (slot_take sl k) (slot_take sl' k).
Proof. intros HS j. rewrite !slot_take_get. destruct (Nat.eqb j k); [constructor|apply HS]. Qed.

Lemma presrel_same R s s' r : strel R s s' -> presrel R (s, r) (s', r).
Proof. intros H. split; [done|]. exists R. split; [apply sub_refl|done]. Qed.
Lemma presrel_sub R R' x y : sub R R' -> presrel R' x y -> presrel R x y.
Proof. intros H [E (R2 & H2 & S)]. split; [done|]. exists R2. split; [by eapply sub_trans|done]. Qed.

Lemma plift_rel R s s' o o' : strel R s s' -> orel (grown R) o o' -> presrel R (plift s o) (plift s' o').
Proof.
  intros S Ho. destruct o as [a|e| |], o' as [a'|e'| |]; cbn in Ho; try done; cbn [plift];
    [|subst e'; by apply presrel_same|by apply presrel_same|by apply presrel_same].
  destruct Ho as (R' & HS & I). split; [done|]. exists R'. split; [done|]. constructor; [done|].
  eapply srel_sub; [exact HS|apply S].
Qed.

Lemma navigate_slot_rel R s s' p : strel R s s' ->
  orel R (navigate_slot_path (fst s) (snd s) p) (navigate_slot_path (fst s') (snd s') p).
Proof.
  intros S. destruct p as [|k p]; cbn; [done|]. destruct (st_slots _ _ _ S k) as [x y H|]; [|done].
  by apply iso_navigate; [apply S|].
Qed.

Lemma with_node_rel R s s' p f f' : strel R s s' -> (forall n n', R n n' -> presrel R (f n) (f' n')) ->
  presrel R (with_node s p f) (with_node s' p f').
Proof.
  intros S Hf. unfold with_node. pose proof (navigate_slot_rel R s s' p S) as Hn.
  destruct (navigate_slot_path (fst s) (snd s) p), (navigate_slot_path (fst s') (snd s') p); cbn in Hn; try done;
    [by apply Hf|subst; by apply presrel_same|by apply presrel_same|by apply presrel_same].
Qed.

Lemma insert_at_rel R s s' at_ n n' slot : strel R s s' -> R n n' ->
  presrel R (insert_at (fst s) (snd s) at_ n slot) (insert_at (fst s') (snd s') at_ n' slot).
Proof.
  intros S Hn. destruct s as [a sl], s' as [b sl']. unfold insert_at, get_slot_parent. cbn [fst snd].
  destruct (Nat.ltb (length at_) 2); [by apply presrel_same|].
  pose proof (navigate_slot_rel R (a, sl) (b, sl') (removelast at_) S) as Hp. cbn [fst snd] in Hp.
  destruct (navigate_slot_path a sl (removelast at_)) as [p|e| |],
           (navigate_slot_path b sl' (removelast at_)) as [p'|e'| |]; cbn in Hp; try done; cbn [obind];
    [|subst; by apply presrel_same|by apply presrel_same|by apply presrel_same].
  destruct S as [I HS]. cbn [fst snd] in I, HS.
  destruct slot as [k|].
  - destruct (Forall2_lookup_opt _ _ _ (List.last at_ 0) (is_children _ _ _ I p p' Hp)) as [d d' Hd|].
    + pose proof (iso_detach R a b d d' I Hd) as I1.
      apply plift_rel; [constructor; [done|by apply srel_set]|]. by apply iso_insert_at_position.
    + apply plift_rel; [by constructor|]. by apply iso_insert_at_position.
  - apply plift_rel; [by constructor|]. by apply iso_insert_at_position.
Qed.

Section Native.
  Variable parse_inner : string -> list htree.

  Lemma insert_new_rel R a b sl sl' d at_ slot : strel R (a, sl) (b, sl') ->
    presrel R (insert_at (fst (new_node a d)) sl at_ (length a) slot)
              (insert_at (fst (new_node b d)) sl' at_ (length b) slot).
  Proof using Type.
    intros [I HS]. cbn [fst snd] in *. eapply presrel_sub; [apply radd_sub|].
    apply (insert_at_rel _ (fst (new_node a d), sl) (fst (new_node b d), sl')); [|by right].
    constructor; [by apply iso_new|]. eapply srel_sub; [apply radd_sub|done].
  Qed.

  Lemma set_kind_rel R a b sl sl' n n' k r : strel R (a, sl) (b, sl') -> R n n' ->
    (forall t l, k = NElem t l -> exists t' l', node_kind a n = Some (NElem t' l')) ->
    presrel R ((set_kind a n k, sl), r) ((set_kind b n' k, sl'), r).
  Proof using Type.
    intros [I HS] Hn Hk. apply presrel_same. constructor; [by apply iso_set_kind|done].
  Qed.

  Lemma apply_patch_rel R s s' p : strel R s s' ->
    presrel R (apply_patch parse_inner s p) (apply_patch parse_inner s' p).
  Proof using Type.
    intros S. destruct s as [a sl], s' as [b sl']. assert (iso R a b) as I0 by exact (st_iso _ _ _ S).
    destruct p as [at_ tag ats cs slot|at_ s slot|at_ s slot|q|q s|q name v|q name|from to slot|q changes|q content];
      cbn [apply_patch].
    - pose proof S as [I HS]. cbn [fst snd] in *. pose proof (iso_new R a b (elem tag ats NsHtml) I) as I1.
      unfold new_node in *. cbn [fst] in I1.
      pose proof (iso_creates cs _ _ _ (length a) (length b) I1 (or_intror (conj eq_refl eq_refl))) as Hc.
      destruct (create_contents _ (length a) cs) as [a2|e| |], (create_contents _ (length b) cs) as [b2|e'| |];
        cbn in Hc; try done.
      + destruct Hc as (R2 & HS2 & I2).
        assert (sub R R2) as HS3 by (eapply sub_trans; [apply radd_sub|exact HS2]).
        eapply presrel_sub; [exact HS3|].
        apply (insert_at_rel R2 (a2, sl) (b2, sl')); [|apply HS2; by right].
        constructor; [done|by eapply srel_sub].
      + subst e'. eapply presrel_sub; [apply radd_sub|]. apply presrel_same. constructor; [done|].
        eapply srel_sub; [apply radd_sub|done].
      + eapply presrel_sub; [apply radd_sub|]. apply presrel_same. constructor; [done|].
        eapply srel_sub; [apply radd_sub|done].
      + eapply presrel_sub; [apply radd_sub|]. apply presrel_same. constructor; [done|].
        eapply srel_sub; [apply radd_sub|done].
    - by apply (insert_new_rel R a b sl sl' (text_node s)).
    - by apply (insert_new_rel R a b sl sl' (comment_node s)).
    - apply with_node_rel; [done|]. intros n n' Hn. apply plift_rel; [done|]. by apply iso_replace_by_empty; [apply S|].
    - apply with_node_rel; [done|]. intros n n' Hn. rewrite <- (is_kind R a b I0 n n' Hn).
      destruct (node_kind a n) as [[]|] eqn:Ek; try (by apply presrel_same); by apply set_kind_rel.
    - apply with_node_rel; [done|]. intros n n' Hn. rewrite <- (is_kind R a b I0 n n' Hn).
      destruct (node_kind a n) as [[]|] eqn:Ek; try (by apply presrel_same). apply set_kind_rel; eauto.
    - apply with_node_rel; [done|]. intros n n' Hn. rewrite <- (is_kind R a b I0 n n' Hn).
      destruct (node_kind a n) as [[]|] eqn:Ek; try (by apply presrel_same). apply set_kind_rel; eauto.
    - apply with_node_rel; [done|]. intros n n' Hn. pose proof S as [I HS]. cbn [fst snd] in *.
      assert (orel (grown R) (if Nat.ltb 1 (length from) then replace_by_empty a n else Val (detach a n))
                             (if Nat.ltb 1 (length from) then replace_by_empty b n' else Val (detach b n'))) as Hm.
      { destruct (Nat.ltb 1 (length from)); [by apply iso_replace_by_empty|]. apply grown_self. by apply iso_detach. }
      destruct (if Nat.ltb 1 (length from) then replace_by_empty a n else Val (detach a n)) as [a1|e| |],
               (if Nat.ltb 1 (length from) then replace_by_empty b n' else Val (detach b n')) as [b1|e'| |];
        cbn in Hm; try done; [|subst; by apply presrel_same|by apply presrel_same|by apply presrel_same].
      destruct Hm as (R1 & HS1 & I1). eapply presrel_sub; [exact HS1|].
      apply (insert_at_rel R1 (a1, sl) (b1, sl')); [|by apply HS1]. constructor; [done|by eapply srel_sub].
    - apply with_node_rel; [done|]. intros n n' Hn. rewrite <- (is_kind R a b I0 n n' Hn).
      destruct (node_kind a n) as [[| | | ]|] eqn:Ek; try (by apply presrel_same);
        try (apply set_kind_rel; by eauto).
      all: destruct (find _ changes) as [c|]; [|by apply presrel_same];
        destruct (pc_value c); [by apply set_kind_rel|by apply presrel_same].
    - apply with_node_rel; [done|]. intros n n' Hn. pose proof S as [I HS]. cbn [fst snd] in *.
      assert (iso R (detach_all a (children a n)) (detach_all b (children b n'))) as I1.
      { apply iso_detach_all; [|done]. by apply (is_children _ _ _ I). }
      apply plift_rel; [by constructor|]. by apply iso_clone_under.
  Qed.

  Lemma apply_all_rel ps : forall R s s', strel R s s' ->
    presrel R (apply_all parse_inner s ps) (apply_all parse_inner s' ps).
  Proof using Type.
    induction ps as [|p ps IH]; intros R s s' S; cbn [apply_all]; [by apply presrel_same|].
    pose proof (apply_patch_rel R s s' p S) as [E (R1 & HS & S1)].
    destruct (apply_patch parse_inner s p) as [t r], (apply_patch parse_inner s' p) as [t' r']. cbn [fst snd] in *. subst r'.
    destruct r as [[]|e| |]; [|by split; eauto..]. eapply presrel_sub; [exact HS|]. by apply IH.
  Qed.
End Native.

(** ** The browser's applier *)

Section Browser.
  Variables valid_elem valid_attr : string -> bool.
  Variable parse_template : string -> list htree.

  Lemma iso_dom_append R a b p p' c c' : iso R a b -> R p p' -> R c c' ->
    orel (iso R) (dom_append a p c) (dom_append b p' c').
  Proof using Type.
    intros I Hp Hc. unfold dom_append. pose proof (iso_append R a b p p' c c' I Hp Hc) as H.
    by destruct (append a p c), (append b p' c').
  Qed.

  Lemma iso_b_create c : forall R a b, iso R a b ->
    orel (grown_node R) (b_create valid_elem valid_attr parse_template a c) (b_create valid_elem valid_attr parse_template b c).
  Proof using Type.
    induction c as [s|s|tag ats cs IH] using icontent_ind'; intros R a b I; cbn [b_create];
      [by apply iso_new_node|by apply iso_new_node|].
    destruct (b_create_element valid_elem valid_attr tag ats) as [d|].
    2:{ unfold b_via_html. destruct (parse_template _) as [|t ts]; [done|]. by apply iso_clone. }
    pose proof (iso_new R a b d I) as I1. unfold new_node in I1 |- *. cbn [fst] in I1.
    set (R1 := radd R (length a) (length b)) in *.
    assert (R1 (length a) (length b)) as Hn by (by right).
    revert I1 Hn. assert (sub R R1) as HS by apply radd_sub. revert HS.
    generalize R1, (a ++ [mkNode d None []]), (b ++ [mkNode d None []]), (length a), (length b). clear I R1 a b.
    induction cs as [|c cs IHcs]; intros R1 a b n n' HS I Hn; cbn.
    - exists R1. done.
    - pose proof (IH c (elem_of_list_here _ _) R1 a b I) as Hc.
      destruct (b_create _ _ _ a c) as [[a1 i]| | |], (b_create _ _ _ b c) as [[b1 j]| | |]; try done.
      destruct Hc as (R2 & HS2 & I2 & Hij). cbn in *.
      pose proof (iso_dom_append R2 a1 b1 n n' i j I2 (HS2 _ _ Hn) Hij) as Hap.
      destruct (dom_append a1 n i) as [a2| | |], (dom_append b1 n' j) as [b2| | |]; try done. cbn in *.
      apply (IHcs (fun c' H' => IH c' (elem_of_list_further _ _ _ H')) R2); [|done|auto].
      by eapply sub_trans.
  Qed.

  Lemma iso_replace_child R a b p p' n n' e e' : iso R a b -> R p p' -> R n n' -> R e e' ->
    orel (iso R) (replace_child a p n e) (replace_child b p' n' e').
  Proof using Type.
    intros I Hp Hn He. unfold replace_child. rewrite (iso_eqb R a b n n' p p' I Hn Hp).
    destruct (Nat.eqb n' p'); [done|]. rewrite (iso_is_ancestor R a b n n' p p' I Hn Hp).
    destruct (is_ancestor b n' p') as [[]|]; [done| |done].
    rewrite (iso_eqb R a b n n' e e' I Hn He). destruct (Nat.eqb n' e'); [done|].
    eapply orel_bind; [by apply (iso_insert_before R a b e e' n n')|]. intros x y I1. by apply iso_detach.
  Qed.

  Lemma b_insert_at_position_rel R a b sl sl' p p' n n' pos slot : strel R (a, sl) (b, sl') -> R p p' -> R n n' ->
    presrel R (b_insert_at_position a sl p n pos slot) (b_insert_at_position b sl' p' n' pos slot).
  Proof using Type.
    intros S Hp Hn. pose proof S as [I HS]. cbn [fst snd] in *. unfold b_insert_at_position.
    pose proof (is_children _ _ _ I p p' Hp) as HC.
    destruct (Forall2_lookup_opt _ _ _ pos HC) as [e e' He|].
    - pose proof (iso_replace_child R a b p p' n n' e e' I Hp Hn He) as Hr.
      destruct (replace_child a p n e) as [a1|er| |], (replace_child b p' n' e') as [b1|er'| |]; cbn in Hr; try done;
        [|subst; by apply presrel_same|by apply presrel_same|by apply presrel_same].
      apply presrel_same. constructor; [done|]. cbn. destruct slot; [by apply srel_set|done].
    - rewrite (Forall2_length _ _ _ HC).
      pose proof (iso_fill_gaps R (pos - length (children b p')) (text_node "") a b p p' I Hp) as Hf.
      destruct (fill_gaps _ _ a p) as [a1|er| |], (fill_gaps _ _ b p') as [b1|er'| |]; cbn in Hf; try done;
        [|subst; by apply presrel_same|by apply presrel_same|by apply presrel_same].
      destruct Hf as (R1 & HS1 & I1). eapply presrel_sub; [exact HS1|].
      apply plift_rel; [constructor; [done|by eapply srel_sub]|]. apply orel_grown. apply iso_dom_append; auto.
  Qed.

  Lemma iso_set_text R a b n n' s : iso R a b -> R n n' ->
    orel (grown R) (set_text_content a n s) (set_text_content b n' s).
  Proof using Type.
    intros I Hn. unfold set_text_content. rewrite <- (is_kind _ _ _ I n n' Hn).
    destruct (node_kind a n) as [[| | |]|] eqn:Ek; try (apply grown_self; done).
    - assert (iso R (detach_all a (children a n)) (detach_all b (children b n'))) as I1.
      { apply iso_detach_all; [|done]. by apply (is_children _ _ _ I). }
      cbv zeta. destruct (String.eqb s ""); [by apply grown_self|].
      pose proof (iso_new R _ _ (text_node s) I1) as I2. unfold new_node in *. cbn [fst] in I2.
      eapply orel_mono; [|apply (iso_dom_append _ _ _ n n' _ _ I2); [by left|by right]].
      intros x y Hxy. eexists. split; [apply radd_sub|exact Hxy].
    - apply grown_self. by apply iso_set_kind.
    - apply grown_self. by apply iso_set_kind.
  Qed.

  Lemma iso_elem_data R a b n n' : iso R a b -> R n n' ->
    match data a n with
    | Some (mkD (NElem t l) ns) => data b n' = Some (mkD (NElem t l) ns)
    | _ => match data b n' with Some (mkD (NElem _ _) _) => False | _ => True end
    end.
  Proof using Type.
    intros I Hn. pose proof (is_kind _ _ _ I n n' Hn) as HK. pose proof (is_elem _ _ _ I n n') as HE.
    unfold node_kind in *. destruct (data a n) as [[k ns]|]; cbn in *.
    - destruct k; [|by rewrite <- (HE _ _ Hn eq_refl)| |].
      all: destruct (data b n') as [[[] ?]|]; cbn in HK; try done.
    - destruct (data b n') as [[[] ?]|]; cbn in HK; done.
  Qed.

  Lemma iso_vacate R a b n n' : iso R a b -> R n n' -> orel (grown R) (vacate a n) (vacate b n').
  Proof using Type.
    intros I Hn. unfold vacate. destruct (is_parent _ _ _ I n n' Hn); [by apply iso_replace_by_empty|by apply grown_self].
  Qed.

  Section Root.
    Variables r r' : nat.

    Lemma find_node_rel R s s' p : strel R s s' -> R r r' ->
      orel R (find_node r (fst s) (snd s) p) (find_node r' (fst s') (snd s') p).
    Proof using Type.
      intros S Hr. destruct p as [|k p]; cbn; [done|]. unfold get_slot_root.
      destruct (Nat.eqb k 0); cbn [obind]; [apply iso_navigate; [apply S|done]|].
      destruct (st_slots _ _ _ S k); cbn [obind]; [|done]. by apply iso_navigate; [apply S|].
    Qed.

    Lemma with_found_rel R s s' p f f' : strel R s s' -> R r r' -> (forall n n', R n n' -> presrel R (f n) (f' n')) ->
      presrel R (with_found r s p f) (with_found r' s' p f').
    Proof using Type.
      intros S Hr Hf. unfold with_found. pose proof (find_node_rel R s s' p S Hr) as Hn.
      destruct (find_node r (fst s) (snd s) p), (find_node r' (fst s') (snd s') p); cbn in Hn; try done;
        [by apply Hf|subst; by apply presrel_same|by apply presrel_same|by apply presrel_same].
    Qed.

    Lemma b_insert_rel R s s' at_ slot make : strel R s s' -> R r r' ->
      (forall a b, iso R a b -> orel (grown_node R) (make a) (make b)) ->
      presrel R (b_insert r s at_ slot make) (b_insert r' s' at_ slot make).
    Proof using Type.
      intros S Hr Hm. unfold b_insert. destruct (Nat.ltb (length at_) 2); [by apply presrel_same|].
      apply with_found_rel; [done..|]. intros p p' Hp. pose proof S as [I HS].
      rewrite <- (is_kind _ _ _ I p p' Hp). destruct (node_kind (fst s) p) as [[]|]; try (by apply presrel_same).
      pose proof (Hm _ _ I) as Hg.
      destruct (make (fst s)) as [[a1 n]|e| |], (make (fst s')) as [[b1 n']|e'| |]; cbn in Hg; try done;
        [|subst; by apply presrel_same|by apply presrel_same|by apply presrel_same].
      destruct Hg as (R1 & HS1 & I1 & Hn). cbn in I1, Hn. eapply presrel_sub; [exact HS1|].
      apply b_insert_at_position_rel; [|by apply HS1|done]. constructor; [done|by eapply srel_sub].
    Qed.

    Lemma b_apply_patch_rel R s s' p : strel R s s' -> R r r' ->
      presrel R (b_apply_patch valid_elem valid_attr parse_template r s p)
                (b_apply_patch valid_elem valid_attr parse_template r' s' p).
    Proof using Type.
      intros S Hr. destruct s as [a sl], s' as [b sl']. assert (iso R a b) as I by exact (st_iso _ _ _ S).
      assert (srel R sl sl') as HS by exact (st_slots _ _ _ S).
      destruct p as [at_ tag ats cs slot|at_ s slot|at_ s slot|q|q s|q name v|q name|from to slot|q changes|q content];
        cbn [b_apply_patch].
      - apply b_insert_rel; [done..|]. intros. by apply iso_b_create.
      - apply b_insert_rel; [done..|]. intros. by apply iso_new_node.
      - apply b_insert_rel; [done..|]. intros. by apply iso_new_node.
      - destruct q as [|k rel]; [by apply presrel_same|].
        destruct (negb (Nat.eqb k 0) && Nat.eqb (length rel) 0).
        + apply presrel_same. constructor; [done|by apply srel_take].
        + apply with_found_rel; [done..|]. intros n n' Hn. apply plift_rel; [done|]. by apply iso_vacate.
      - apply with_found_rel; [done..|]. intros n n' Hn. apply plift_rel; [done|]. by apply iso_set_text.
      - apply with_found_rel; [done..|]. intros n n' Hn. pose proof (iso_elem_data R a b n n' I Hn) as Hd.
        destruct (data a n) as [[[|t l| |] ns]|] eqn:Ed;
          try (destruct (data b n') as [[[] ?]|]; try done; by apply presrel_same).
        rewrite Hd. destruct (b_set_attr valid_attr ns l (bname name) v); [|by apply presrel_same].
        apply set_kind_rel; [done..|]. intros. unfold node_kind. rewrite Ed. cbn. eauto.
      - apply with_found_rel; [done..|]. intros n n' Hn. pose proof (iso_elem_data R a b n n' I Hn) as Hd.
        destruct (data a n) as [[[|t l| |] ns]|] eqn:Ed;
          try (destruct (data b n') as [[[] ?]|]; try done; by apply presrel_same).
        rewrite Hd. apply set_kind_rel; [done..|]. intros. unfold node_kind. rewrite Ed. cbn. eauto.
      - set (tk := match from with [k] => _ | _ => _ end). set (tk' := match from with [k] => match slot_get sl' k with _ => _ end | _ => _ end).
        assert (orel (fun x y => exists R', sub R R' /\ strel R' (fst x) (fst y) /\ R' (snd x) (snd y)) tk tk') as Ht.
        { assert (orel (fun x y => exists R', sub R R' /\ strel R' (fst x) (fst y) /\ R' (snd x) (snd y))
             (let! n := find_node r a sl from in let! a1 := vacate a n in Val (a1, sl, n))
             (let! n := find_node r' b sl' from in let! a1 := vacate b n in Val (a1, sl', n))) as Hg.
          { eapply orel_bind; [apply (find_node_rel R (a, sl) (b, sl') from S Hr)|]. intros n n' Hn.
            eapply orel_bind; [by apply (iso_vacate R a b n n' I Hn)|]. intros a1 b1 (R1 & HS1 & I1). cbn.
            exists R1. split; [done|]. split; [constructor; [done|by eapply srel_sub]|by apply HS1]. }
          unfold tk, tk'. destruct from as [|k [|k' from]]; try exact Hg.
          destruct (HS k) as [n n' Hn|]; [|done]. cbn. exists R. split; [apply sub_refl|].
          split; [constructor; [done|by apply srel_take]|done]. }
        destruct tk as [[[a1 sl1] n]|e| |], tk' as [[[b1 sl1'] n']|e'| |]; cbn in Ht; try done;
          [|subst; by apply presrel_same|by apply presrel_same|by apply presrel_same].
        destruct Ht as (R1 & HS1 & S1 & Hn). eapply presrel_sub; [exact HS1|]. cbv zeta.
        destruct (Nat.ltb (length to) 2); [by apply presrel_same|].
        apply with_found_rel; [done|by apply HS1|]. intros p p' Hp.
        rewrite <- (is_kind R1 a1 b1 (st_iso _ _ _ S1) p p' Hp).
        destruct (node_kind a1 p) as [[]|]; try (by apply presrel_same). by apply b_insert_at_position_rel.
      - apply with_found_rel; [done..|]. intros n n' Hn.
        set (tx := match find _ changes with Some c => _ | None => Val a end).
        set (tx' := match find _ changes with Some c => _ | None => Val b end).
        assert (orel (grown R) tx tx') as Ht.
        { unfold tx, tx'. destruct (find _ changes) as [c|]; [|by apply grown_self].
          destruct (pc_value c); [by apply iso_set_text|by apply grown_self]. }
        destruct tx as [a1|e| |], tx' as [b1|e'| |]; cbn in Ht; try done;
          [|subst; by apply presrel_same|by apply presrel_same|by apply presrel_same].
        destruct Ht as (R1 & HS1 & I1). eapply presrel_sub; [exact HS1|].
        assert (strel R1 (a1, sl) (b1, sl')) as S1 by (constructor; [done|by eapply srel_sub]).
        pose proof (iso_elem_data R1 a1 b1 n n' I1 (HS1 _ _ Hn)) as Hd.
        destruct (data a1 n) as [[[|t l| |] ns]|] eqn:Ed;
          try (destruct (data b1 n') as [[[] ?]|]; try done; by apply presrel_same).
        rewrite Hd. destruct (b_set_changes valid_attr ns l (b_clear ns l) changes) as [l' ok].
        apply set_kind_rel; [done|by apply HS1|]. intros. unfold node_kind. rewrite Ed. cbn. eauto.
      - apply with_found_rel; [done..|]. intros n n' Hn. rewrite <- (is_kind R a b I n n' Hn).
        destruct (node_kind a n) as [[]|]; by apply presrel_same.
    Qed.

    Lemma b_apply_all_rel ps : forall R s s', strel R s s' -> R r r' ->
      presrel R (b_apply_all valid_elem valid_attr parse_template r s ps)
                (b_apply_all valid_elem valid_attr parse_template r' s' ps).
    Proof using Type.
      induction ps as [|p ps IH]; intros R s s' S Hr; cbn [b_apply_all]; [by apply presrel_same|].
      pose proof (b_apply_patch_rel R s s' p S Hr) as [E (R1 & HS & S1)].
      destruct (b_apply_patch _ _ _ r s p) as [t o], (b_apply_patch _ _ _ r' s' p) as [t' o'].
      cbn [fst snd] in *. subst o'.
      destruct o as [[]|e| |]; [|by split; eauto..]. eapply presrel_sub; [exact HS|]. apply IH; auto.
    Qed.
  End Root.
End Browser.

(** ** Arenas that hold the same tree *)

Lemma iso_holds R a b : iso R a b -> forall h i j, R i j -> holds a h i -> holds b h j.
Proof.
  intros I. induction h as [s|s|tag ns ats cs IH] using htree_ind'; intros i j Hij Hh.
  - destruct Hh as [Hk Hc]. pose proof (is_children _ _ _ I i j Hij) as HC. rewrite Hc in HC. inversion HC.
    split; [by rewrite <- (is_kind _ _ _ I i j Hij)|done].
  - destruct Hh as [Hk Hc]. pose proof (is_children _ _ _ I i j Hij) as HC. rewrite Hc in HC. inversion HC.
    split; [by rewrite <- (is_kind _ _ _ I i j Hij)|done].
  - apply holds_elem in Hh as [Hd Hcs]. apply holds_elem. split.
    + rewrite <- (is_elem _ _ _ I i j tag ats Hij); [done|]. unfold node_kind. by rewrite Hd.
    + pose proof (is_children _ _ _ I i j Hij) as HC. revert HC. generalize (children b j).
      unfold holds_list in *. revert IH. induction Hcs as [|c x cs l Hc Hl IHl]; intros IH l' HC; inversion HC; subst;
        [constructor|]. constructor.
      * eapply IH; [left|done|done]. * apply IHl; [|done]. intros c' Hc' i' j'. apply IH. by right.
Qed.

(** The nodes at the same path below two nodes. *)
Definition same_path (a b : arena dnode) (i j : nat) : nrel :=
  fun x y => exists p, navigate a i p = Val x /\ navigate b j p = Val y.

Lemma navigate_snoc a p k : forall i, navigate a i (p ++ [k]) = 
  match navigate a i p with Val x => match children a x !! k with Some c => Val c | None => Fail (PathOutOfBounds k) end | r => r end.
Proof. induction p as [|k' p IH]; intros i; cbn; [done|]. by destruct (children a i !! k'). Qed.

Lemma navigate_node a p : forall i x, navigate a i p = Val x -> node_at a i p = Some x.
Proof.
  induction p as [|k p IH]; intros i x; cbn; [by intros [= ->]|].
  destruct (children a i !! k); [|done]. apply IH.
Qed.

Lemma navigate_inj a i p p' x : wf a -> navigate a i p = Val x -> navigate a i p' = Val x -> p = p'.
Proof. intros W H1 H2. by eapply (node_at_inj a i W); apply navigate_node. Qed.

Lemma holds_child a h i k c : holds a h i -> children a i !! k = Some c ->
  exists tag ns ats cs h', h = HElem tag ns ats cs /\ cs !! k = Some h' /\ holds a h' c.
Proof.
  destruct h as [tag ns ats cs|s|s]; intros Ha Hk; [|by destruct Ha as [_ E]; rewrite E in Hk..].
  apply holds_elem in Ha as [_ Ha]. unfold holds_list in Ha.
  pose proof (Forall2_lookup_opt _ _ _ k Ha) as O. rewrite Hk in O. inversion O as [h' c' Hh E1 E2|]; subst.
  by exists tag, ns, ats, cs, h'.
Qed.

Lemma holds_child_at a tag ns ats cs i k h' : holds a (HElem tag ns ats cs) i -> cs !! k = Some h' ->
  exists c, children a i !! k = Some c /\ holds a h' c.
Proof.
  intros Ha Hk. apply holds_elem in Ha as [_ Ha]. unfold holds_list in Ha.
  pose proof (Forall2_lookup_opt _ _ _ k Ha) as O. rewrite Hk in O. inversion O as [? c Hh E1 E2|]; subst. eauto.
Qed.

Lemma holds_navigate a b p : forall h i j x, holds a h i -> holds b h j -> navigate a i p = Val x ->
  exists h' y, navigate b j p = Val y /\ holds a h' x /\ holds b h' y.
Proof.
  induction p as [|k p IH]; intros h i j x Ha Hb; cbn.
  - intros [= <-]. exists h, j. done.
  - destruct (children a i !! k) as [c|] eqn:Ec; [|done]. intros Hn.
    destruct (holds_child a h i k c Ha Ec) as (tag & ns & ats & cs & h' & -> & Ek & Hc).
    destruct (holds_child_at b tag ns ats cs j k h' Hb Ek) as (c' & Ec' & Hc'). rewrite Ec'.
    by eapply IH.
Qed.

Lemma iso_same_tree a b h i j : wf a -> wf b -> holds a h i -> holds b h j -> parent a i = None -> parent b j = None ->
  iso (same_path a b i j) a b.
Proof.
  intros Wa Wb Ha Hb Pa Pb.
  assert (forall x y, same_path a b i j x y -> exists h', holds a h' x /\ holds b h' y) as HH.
  { intros x y (p & Hx & Hy). destruct (holds_navigate a b p h i j x Ha Hb Hx) as (h' & y' & Hy' & H1 & H2).
    assert (y' = y) as -> by congruence. by exists h'. }
  constructor.
  - intros x y Hxy. destruct (HH x y Hxy) as (h' & H1 & H2). split; by eapply holds_lt.
  - intros x y y' (p & Hx & Hy) (p' & Hx' & Hy'). assert (p = p') as <- by (by eapply (navigate_inj a)). congruence.
  - intros x x' y (p & Hx & Hy) (p' & Hx' & Hy'). assert (p = p') as <- by (by eapply (navigate_inj b)). congruence.
  - intros x y Hxy. destruct (HH x y Hxy) as (h' & H1 & H2). destruct h' as [tag ns ats cs|s|s].
    + apply holds_elem in H1 as [E1 _]. apply holds_elem in H2 as [E2 _]. unfold node_kind. by rewrite E1, E2.
    + destruct H1 as [-> _], H2 as [-> _]. done.
    + destruct H1 as [-> _], H2 as [-> _]. done.
  - intros x y t l Hxy Hk. destruct (HH x y Hxy) as (h' & H1 & H2). destruct h' as [tag ns ats cs|s|s].
    + apply holds_elem in H1 as [E1 _]. apply holds_elem in H2 as [E2 _]. by rewrite E1, E2.
    + destruct H1 as [E _]. congruence.
    + destruct H1 as [E _]. congruence.
  - intros x y Hxy. apply Forall2_same_length_lookup_2.
    + destruct (HH x y Hxy) as (h' & H1 & H2). destruct h' as [tag ns ats cs|s|s].
      * apply holds_elem in H1 as [_ E1]. apply holds_elem in H2 as [_ E2]. unfold holds_list in *.
        apply Forall2_length in E1, E2. congruence.
      * destruct H1 as [_ ->], H2 as [_ ->]. done.
      * destruct H1 as [_ ->], H2 as [_ ->]. done.
    + intros k c c' Hc Hc'. destruct Hxy as (p & Hx & Hy). exists (p ++ [k]). rewrite !navigate_snoc, Hx, Hy, Hc, Hc'. done.
  - intros x y (p & Hx & Hy). destruct (decide (p = [])) as [->|Hne].
    { cbn in Hx, Hy. injection Hx as <-. injection Hy as <-. rewrite Pa, Pb. constructor. }
    destruct (exists_last Hne) as (q & k & ->). rewrite navigate_snoc in Hx, Hy.
    destruct (navigate a i q) as [u| | |] eqn:Eu; try done. destruct (navigate b j q) as [v| | |] eqn:Ev; try done.
    destruct (children a u !! k) as [c|] eqn:Ec; [|done]. destruct (children b v !! k) as [c'|] eqn:Ec'; [|done].
    injection Hx as ->. injection Hy as ->.
    apply elem_of_list_lookup_2, (wf_pc a Wa) in Ec. apply elem_of_list_lookup_2, (wf_pc b Wb) in Ec'.
    rewrite Ec, Ec'. constructor. by exists q.
Qed.
