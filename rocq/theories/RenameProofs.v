(** Matching and edit script under a renaming of the nodes of the two trees. *)
From Verif Require Import Base Arena Matching Chawathe ArenaProofs TreeProofs MatchProofs IsoProofs.

(** ** Lists *)

Section Lists.
  Context {A B : Type} (R : A -> B -> Prop).

  Lemma rel_filter (f : A -> bool) (g : B -> bool) l l' :
    (forall x y, R x y -> f x = g y) -> Forall2 R l l' -> Forall2 R (List.filter f l) (List.filter g l').
  Proof using Type.
    intros HE Hl. induction Hl as [|x y l l' Hxy Hl IH]; cbn; [constructor|].
    rewrite (HE x y Hxy). destruct (g y); [by constructor|done].
  Qed.

  Lemma rel_find (f : A -> bool) (g : B -> bool) l l' :
    (forall x y, R x y -> f x = g y) -> Forall2 R l l' -> option_Forall2 R (find f l) (find g l').
  Proof using Type.
    intros HE Hl. induction Hl as [|x y l l' Hxy Hl IH]; cbn; [constructor|].
    rewrite (HE x y Hxy). destruct (g y); [by constructor|done].
  Qed.

  Lemma rel_fold {C D} (P : C -> D -> Prop) (f : C -> A -> C) (g : D -> B -> D) l l' :
    (forall c d x y, P c d -> R x y -> P (f c x) (g d y)) -> Forall2 R l l' ->
    forall c d, P c d -> P (fold_left f l c) (fold_left g l' d).
  Proof using Type.
    intros HE Hl. induction Hl as [|x y l l' Hxy Hl IH]; intros c d Hcd; cbn; [done|]. apply IH. by apply HE.
  Qed.

  Lemma rel_flat_map {C D} (P : C -> D -> Prop) (f : A -> list C) (g : B -> list D) l l' :
    (forall x y, R x y -> Forall2 P (f x) (g y)) -> Forall2 R l l' ->
    Forall2 P (flat_map f l) (flat_map g l').
  Proof using Type.
    intros HE Hl. induction Hl as [|x y l l' Hxy Hl IH]; cbn; [constructor|]. apply Forall2_app; auto.
  Qed.

  Lemma rel_map_eq {C} (f : A -> C) (g : B -> C) l l' :
    (forall x y, R x y -> f x = g y) -> Forall2 R l l' -> map f l = map g l'.
  Proof using Type.
    intros HE Hl. induction Hl as [|x y l l' Hxy Hl IH]; cbn; [done|]. by rewrite IH, (HE x y).
  Qed.
End Lists.

Lemma flat_map_eq_rel {A B C} (R : A -> B -> Prop) (f : A -> list C) (g : B -> list C) l l' :
  (forall x y, R x y -> f x = g y) -> Forall2 R l l' -> flat_map f l = flat_map g l'.
Proof.
  intros HE Hl. induction Hl as [|x y l l' Hxy Hl IH]; cbn; [done|]. by rewrite IH, (HE x y).
Qed.

Lemma rel_combine {A B C D} (P : A -> B -> Prop) (Q : C -> D -> Prop) l l' k k' :
  Forall2 P l l' -> Forall2 Q k k' ->
  Forall2 (fun x y => P (fst x) (fst y) /\ Q (snd x) (snd y)) (combine l k) (combine l' k').
Proof.
  intros Hl. revert k k'. induction Hl as [|x y l l' Hxy Hl IH]; intros k k' Hk; cbn; [constructor|].
  destruct Hk as [|u v k k' Huv Hk]; constructor; [done|]. by apply IH.
Qed.

Lemma rel_rev {A B} (R : A -> B -> Prop) l l' : Forall2 R l l' -> Forall2 R (rev l) (rev l').
Proof. induction 1; cbn; [constructor|]. apply Forall2_app; [done|by repeat constructor]. Qed.

(** ** Trees *)

(** The same tree under other names. *)
Record drel {H K P T} (R : nrel) (t t' : dtree H K P T) : Prop := {
  dr_fun : forall i j j', R i j -> R i j' -> j = j';
  dr_inj : forall i i' j, R i j -> R i' j -> i = i';
  dr_root : R (t_root t) (t_root t');
  dr_hash : forall i j, R i j -> t_hash t i = t_hash t' j;
  dr_kind : forall i j, R i j -> t_kind t i = t_kind t' j;
  dr_props : forall i j, R i j -> t_props t i = t_props t' j;
  dr_text : forall i j, R i j -> t_text t i = t_text t' j;
  dr_parent : forall i j, R i j -> option_Forall2 R (t_parent t i) (t_parent t' j);
  dr_children : forall i j, R i j -> Forall2 R (t_children t i) (t_children t' j);
  dr_position : forall i j, R i j -> t_position t i = t_position t' j;
  dr_height : forall i j, R i j -> t_height t i = t_height t' j;
  dr_iter : Forall2 R (t_iter t) (t_iter t');
  dr_post : Forall2 R (t_post t) (t_post t');
  dr_desc : forall i j, R i j -> Forall2 R (t_desc t i) (t_desc t' j);
  dr_opaque : forall i j, R i j -> t_opaque t i = t_opaque t' j
}.

Lemma drel_refl {H K P T} (t : dtree H K P T) : drel eq t t.
Proof.
  assert (forall l : list nat, Forall2 eq l l) as F by (induction l; by constructor).
  constructor; try congruence; try by auto.
  - intros i j ->. destruct (t_parent t j); by constructor.
  - intros i j ->. apply F.
  - intros i j ->. apply F.
Qed.

Definition prel (Ra Rb : nrel) (p q : nat * nat) : Prop := Ra (fst p) (fst q) /\ Rb (snd p) (snd q).

(** The same matching under other names. *)
Record mrel (Ra Rb : nrel) (m m' : matching) : Prop := {
  mr_b : forall a a', Ra a a' -> option_Forall2 Rb (get_b m a) (get_b m' a');
  mr_a : forall b b', Rb b b' -> option_Forall2 Ra (get_a m b) (get_a m' b');
  mr_pairs : Forall2 (prel Ra Rb) (m_pairs m) (m_pairs m')
}.

Lemma mrel_empty Ra Rb : mrel Ra Rb m_empty m_empty.
Proof.
  constructor; cbn; [| |constructor]; intros x y _; unfold get_a, get_b, vget; cbn; destruct x, y; constructor.
Qed.

Section Rename.
  Context {H K P T : Type}.
  Variable heqb : H -> H -> bool.
  Variable keqb : K -> K -> bool.
  Variable sim : P -> P -> ratio.
  Variable cfg : config.
  Variables Ra Rb : nrel.
  Variables ta ta' tb tb' : dtree H K P T.
  Hypothesis DA : drel Ra ta ta'.
  Hypothesis DB : drel Rb tb tb'.

  Notation mr := (mrel Ra Rb).

  Lemma ra_eqb i j i' j' : Ra i j -> Ra i' j' -> Nat.eqb i i' = Nat.eqb j j'.
  Proof using DA. apply rel_eqb; [exact (dr_fun _ _ _ DA)|exact (dr_inj _ _ _ DA)]. Qed.
  Lemma rb_eqb i j i' j' : Rb i j -> Rb i' j' -> Nat.eqb i i' = Nat.eqb j j'.
  Proof using DB. apply rel_eqb; [exact (dr_fun _ _ _ DB)|exact (dr_inj _ _ _ DB)]. Qed.
  Lemma ra_mem i j l l' : Ra i j -> Forall2 Ra l l' -> mem i l = mem j l'.
  Proof using DA. apply rel_existsb; [exact (dr_fun _ _ _ DA)|exact (dr_inj _ _ _ DA)]. Qed.
  Lemma rb_mem i j l l' : Rb i j -> Forall2 Rb l l' -> mem i l = mem j l'.
  Proof using DB. apply rel_existsb; [exact (dr_fun _ _ _ DB)|exact (dr_inj _ _ _ DB)]. Qed.

  Lemma mrel_add m m' a a' b b' : mr m m' -> Ra a a' -> Rb b b' -> mr (m_add m a b) (m_add m' a' b').
  Proof using DA DB.
    intros M Ha Hb. constructor.
    - intros x y Hxy. rewrite !get_b_add, (ra_eqb a a' x y); [|done|done].
      destruct (Nat.eqb a' y); [by constructor|by apply M].
    - intros x y Hxy. rewrite !get_a_add, (rb_eqb b b' x y); [|done|done].
      destruct (Nat.eqb b' y); [by constructor|by apply M].
    - cbn. apply Forall2_app; [apply M|]. by repeat constructor.
  Qed.

  Lemma contains_a_rel m m' a a' : mr m m' -> Ra a a' -> contains_a m a = contains_a m' a'.
  Proof using Type. intros M Ha. unfold contains_a. by destruct (mr_b _ _ _ _ M a a' Ha). Qed.
  Lemma contains_b_rel m m' b b' : mr m m' -> Rb b b' -> contains_b m b = contains_b m' b'.
  Proof using Type. intros M Hb. unfold contains_b. by destruct (mr_a _ _ _ _ M b b' Hb). Qed.

  Lemma opaque_desc_rel R (t t' : dtree H K P T) : drel R t t' -> Forall2 R (opaque_descendants t) (opaque_descendants t').
  Proof using Type.
    intros D. unfold opaque_descendants. eapply rel_flat_map; [|apply D]. intros i j Hij. cbn.
    rewrite (dr_opaque _ _ _ D i j Hij). destruct (t_opaque t' j); [|constructor].
    apply rel_filter; [|by apply D]. intros x y Hxy. f_equal. eapply rel_eqb; try done; apply D.
  Qed.

  (** *** Top-down *)

  Lemma match_subtrees_rel f : forall a a' b b' m m', Ra a a' -> Rb b b' -> mr m m' ->
    option_Forall2 mr (match_subtrees ta tb f a b m) (match_subtrees ta' tb' f a' b' m').
  Proof using DA DB.
    induction f as [|f IH]; intros a a' b b' m m' Ha Hb M; [constructor|]. cbn [match_subtrees].
    rewrite (contains_a_rel m m' a a' M Ha), (contains_b_rel m m' b b' M Hb).
    destruct (contains_a m' a' || contains_b m' b'); [by constructor|].
    rewrite (dr_opaque _ _ _ DA a a' Ha), (dr_opaque _ _ _ DB b b' Hb).
    pose proof (mrel_add m m' a a' b b' M Ha Hb) as M1.
    destruct (t_opaque ta' a' || t_opaque tb' b'); [by constructor|].
    pose proof (rel_combine _ _ _ _ _ _ (dr_children _ _ _ DA a a' Ha) (dr_children _ _ _ DB b b' Hb)) as HC.
    revert M1. generalize (m_add m a b), (m_add m' a' b'). clear M m m'.
    induction HC as [|[x y] [x' y'] l l' [Hx Hy] HC IHC]; intros m m' M; [by constructor|].
    cbn [fst snd] in *. destruct (IH x x' y y' m m' Hx Hy M) as [u v Huv|]; [|constructor]. by apply IHC.
  Qed.

  Lemma td_push_rel m m' a a' b b' : Ra a a' -> Rb b b' -> mr m m' ->
    Forall2 (prel Ra Rb) (td_push heqb keqb ta tb m a b) (td_push heqb keqb ta' tb' m' a' b').
  Proof using DA DB.
    intros Ha Hb M. unfold td_push. eapply rel_flat_map; [|by apply (dr_children _ _ _ DA)].
    intros x x' Hx. eapply rel_flat_map; [|by apply (dr_children _ _ _ DB)]. intros y y' Hy. cbn.
    rewrite (contains_b_rel m m' y y' M Hy), (dr_hash _ _ _ DA x x' Hx), (dr_hash _ _ _ DB y y' Hy),
      (dr_kind _ _ _ DA x x' Hx), (dr_kind _ _ _ DB y y' Hy).
    destruct (_ && _); by repeat constructor.
  Qed.

  Lemma td_loop_rel f sf : forall st st' m m', Forall2 (prel Ra Rb) st st' -> mr m m' ->
    option_Forall2 mr (td_loop heqb keqb cfg ta tb f sf st m) (td_loop heqb keqb cfg ta' tb' f sf st' m').
  Proof using DA DB.
    induction f as [|f IH]; intros st st' m m' Hst M.
    { destruct Hst as [|[a b] [a' b'] st st' Hp Hst]; cbn; by constructor. }
    destruct Hst as [|[a b] [a' b'] st st' [Ha Hb] Hst]; cbn [td_loop]; [by constructor|]. cbn [fst snd] in *.
    rewrite (contains_a_rel m m' a a' M Ha), (contains_b_rel m m' b b' M Hb).
    destruct (contains_a m' a' || contains_b m' b'); [by apply IH|].
    rewrite (dr_height _ _ _ DA a a' Ha). destruct (Nat.ltb _ _); [by apply IH|].
    rewrite (dr_hash _ _ _ DA a a' Ha), (dr_hash _ _ _ DB b b' Hb),
      (dr_kind _ _ _ DA a a' Ha), (dr_kind _ _ _ DB b b' Hb).
    destruct (heqb _ _ && keqb _ _).
    { destruct (match_subtrees_rel sf a a' b b' m m' Ha Hb M) as [u v Huv|]; [by apply IH|constructor]. }
    rewrite (dr_opaque _ _ _ DA a a' Ha), (dr_opaque _ _ _ DB b b' Hb).
    destruct (t_opaque ta' a' || t_opaque tb' b').
    { destruct (keqb _ _); [|by apply IH]. apply IH; [done|]. by apply mrel_add. }
    apply IH; [|done]. apply Forall2_app; [|done]. apply rel_rev. by apply td_push_rel.
  Qed.

  Lemma pair_weight_rel f : forall a a' b b', Ra a a' -> Rb b b' ->
    pair_weight ta tb f a b = pair_weight ta' tb' f a' b'.
  Proof using DA DB.
    induction f as [|f IH]; intros a a' b b' Ha Hb; [done|]. cbn [pair_weight]. f_equal. f_equal.
    eapply flat_map_eq_rel; [|by apply (dr_children _ _ _ DA)]. intros x x' Hx. cbn.
    eapply rel_map_eq; [|by apply (dr_children _ _ _ DB)]. intros y y' Hy. by apply IH.
  Qed.

  Lemma top_down_rel m m' : mr m m' ->
    option_Forall2 mr (top_down heqb keqb cfg ta tb m) (top_down heqb keqb cfg ta' tb' m').
  Proof using DA DB.
    intros M. unfold top_down, td_fuel. rewrite (Forall2_length _ _ _ (dr_iter _ _ _ DA)).
    rewrite (pair_weight_rel _ _ _ _ _ (dr_root _ _ _ DA) (dr_root _ _ _ DB)).
    apply td_loop_rel; [|done]. repeat constructor; [apply DA|apply DB].
  Qed.

  (** *** Bottom-up *)

  Lemma ancestry_rel m m' a a' b b' : mr m m' -> Ra a a' -> Rb b b' ->
    ancestry_compatible ta tb m a b = ancestry_compatible ta' tb' m' a' b'.
  Proof using DA DB.
    intros M Ha Hb. unfold ancestry_compatible. f_equal.
    - destruct (dr_parent _ _ _ DA a a' Ha) as [p p' Hp|]; [|done].
      destruct (mr_b _ _ _ _ M p p' Hp) as [q q' Hq|]; [|done]. apply rb_mem; [done|by apply DB].
    - destruct (dr_parent _ _ _ DB b b' Hb) as [p p' Hp|]; [|done].
      destruct (mr_a _ _ _ _ M p p' Hp) as [q q' Hq|]; [|done]. apply ra_mem; [done|by apply DA].
  Qed.

  Lemma dice_rel m m' a a' b b' : mr m m' -> Ra a a' -> Rb b b' ->
    dice ta tb m a b = dice ta' tb' m' a' b'.
  Proof using DA DB.
    intros M Ha Hb. assert (dice_common ta tb m a b = dice_common ta' tb' m' a' b') as EC.
    { unfold dice_common. eapply Forall2_length. apply rel_filter; [|by apply DA]. intros x y Hxy. cbn.
      destruct (mr_b _ _ _ _ M x y Hxy) as [u v Huv|]; [|done]. apply rb_mem; [done|by apply DB]. }
    unfold dice. rewrite EC.
    pose proof (dr_desc _ _ _ DA a a' Ha) as HA. pose proof (dr_desc _ _ _ DB b b' Hb) as HB.
    pose proof (Forall2_length _ _ _ HA) as LA. pose proof (Forall2_length _ _ _ HB) as LB.
    destruct HA, HB; cbn in *; congruence.
  Qed.

  Lemma sim_rel a a' b b' : Ra a a' -> Rb b b' ->
    sim (t_props ta a) (t_props tb b) = sim (t_props ta' a') (t_props tb' b').
  Proof using DA DB. intros Ha Hb. by rewrite (dr_props _ _ _ DA a a' Ha), (dr_props _ _ _ DB b b' Hb). Qed.

  Lemma nchildren_rel b b' : Rb b b' -> length (t_children tb b) = length (t_children tb' b').
  Proof using DB. intros Hb. eapply Forall2_length. by apply DB. Qed.

  Lemma matched_parent_rel m m' a a' : mr m m' -> Ra a a' ->
    option_Forall2 Rb (matched_parent_b ta m a) (matched_parent_b ta' m' a').
  Proof using DA.
    intros M Ha. unfold matched_parent_b. destruct (dr_parent _ _ _ DA a a' Ha) as [p p' Hp|]; [|constructor].
    by apply M.
  Qed.

  Lemma pos_candidate_rel m m' a a' b b' : mr m m' -> Ra a a' -> Rb b b' ->
    option_Forall2 Rb (pos_candidate keqb sim cfg ta tb m a b) (pos_candidate keqb sim cfg ta' tb' m' a' b').
  Proof using DA DB.
    intros M Ha Hb. unfold pos_candidate. apply rel_find.
    - intros x y Hxy. by rewrite (dr_position _ _ _ DA a a' Ha), (dr_position _ _ _ DB x y Hxy), (sim_rel a a' x y).
    - apply rel_filter; [|by apply DB]. intros x y Hxy.
      by rewrite (contains_b_rel m m' x y M Hxy), (dr_kind _ _ _ DA a a' Ha), (dr_kind _ _ _ DB x y Hxy).
  Qed.

  Lemma b_index_rel m m' l l' : mr m m' -> Forall2 Rb l l' -> Forall2 Rb (b_index tb m l) (b_index tb' m' l').
  Proof using DB.
    intros M Hl. unfold b_index. apply rel_filter; [|apply DB]. intros x y Hxy.
    by rewrite (contains_b_rel m m' x y M Hxy), (rb_mem x y l l').
  Qed.

  Lemma by_kind_rel l l' a a' : Ra a a' -> Forall2 Rb l l' ->
    Forall2 Rb (by_kind keqb tb l (t_kind ta a)) (by_kind keqb tb' l' (t_kind ta' a')).
  Proof using DA DB.
    intros Ha Hl. unfold by_kind. apply rel_filter; [|done]. intros x y Hxy.
    by rewrite (dr_kind _ _ _ DA a a' Ha), (dr_kind _ _ _ DB x y Hxy).
  Qed.

  Definition brel (p q : nat * ratio) : Prop := Rb (fst p) (fst q) /\ snd p = snd q.

  Lemma dice_best_rel m m' l l' a a' : mr m m' -> Forall2 Rb l l' -> Ra a a' ->
    option_Forall2 brel (dice_best keqb sim cfg ta tb m l a) (dice_best keqb sim cfg ta' tb' m' l' a').
  Proof using DA DB.
    intros M Hl Ha. unfold dice_best.
    eapply (rel_fold Rb (option_Forall2 brel)); [|by apply by_kind_rel|constructor].
    intros c d x y Hc Hxy. unfold dice_step.
    rewrite (contains_b_rel m m' x y M Hxy), (nchildren_rel x y Hxy), (ancestry_rel m m' a a' x y M Ha Hxy),
      (sim_rel a a' x y Ha Hxy), (dice_rel m m' a a' x y M Ha Hxy).
    repeat (match goal with |- option_Forall2 _ (if ?b then _ else _) _ => destruct b; [done|] end). cbn zeta.
    destruct Hc as [[u s] [v s'] [Huv Hs]|]; cbn [fst snd] in *.
    - subst s'. destruct (_ && _); by repeat constructor.
    - destruct (_ && _); by repeat constructor.
  Qed.

  Lemma root_candidate_rel m m' l l' a a' : mr m m' -> Forall2 Rb l l' -> Ra a a' ->
    option_Forall2 Rb (root_candidate keqb sim cfg ta tb m l a) (root_candidate keqb sim cfg ta' tb' m' l' a').
  Proof using DA DB.
    intros M Hl Ha. unfold root_candidate. apply rel_find; [|by apply by_kind_rel]. intros x y Hxy.
    rewrite (contains_b_rel m m' x y M Hxy), (nchildren_rel x y Hxy), (sim_rel a a' x y Ha Hxy).
    by destruct (dr_parent _ _ _ DB x y Hxy).
  Qed.

  Lemma pass1_rel o o' l l' m m' a a' : Forall2 Ra o o' -> Forall2 Rb l l' -> mr m m' -> Ra a a' ->
    mr (pass1_step keqb sim cfg ta tb o l m a) (pass1_step keqb sim cfg ta' tb' o' l' m' a').
  Proof using DA DB.
    intros Ho Hl M Ha. unfold pass1_step. rewrite (contains_a_rel m m' a a' M Ha), (ra_mem a a' o o' Ha Ho).
    destruct (_ || _); [done|]. cbn zeta.
    assert (option_Forall2 Rb
      match matched_parent_b ta m a with Some pb => pos_candidate keqb sim cfg ta tb m a pb | None => None end
      match matched_parent_b ta' m' a' with Some pb => pos_candidate keqb sim cfg ta' tb' m' a' pb | None => None end)
      as [b b' Hb|].
    { destruct (matched_parent_rel m m' a a' M Ha) as [p p' Hp|]; [|constructor]. by apply pos_candidate_rel. }
    { by apply mrel_add. }
    destruct (dice_best_rel m m' l l' a a' M Hl Ha) as [[b s] [b' s'] [Hb _]|]; [by apply mrel_add|].
    destruct (dr_parent _ _ _ DA a a' Ha); [done|].
    destruct (root_candidate_rel m m' l l' a a' M Hl Ha) as [b b' Hb|]; [by apply mrel_add|done].
  Qed.

  Lemma leaf_candidate_rel m m' a a' b b' : mr m m' -> Ra a a' -> Rb b b' ->
    option_Forall2 Rb (leaf_candidate heqb keqb sim cfg ta tb m a b) (leaf_candidate heqb keqb sim cfg ta' tb' m' a' b').
  Proof using DA DB.
    intros M Ha Hb. unfold leaf_candidate. cbn zeta.
    match goal with |- context [find _ ?x] => match goal with |- context [option_Forall2 _ _ match find _ ?y with _ => _ end] =>
      assert (Forall2 Rb x y) as HC end end.
    { apply rel_filter; [|by apply DB]. intros x y Hxy.
      by rewrite (contains_b_rel m m' x y M Hxy), (nchildren_rel x y Hxy), (dr_kind _ _ _ DA a a' Ha), (dr_kind _ _ _ DB x y Hxy). }
    revert HC. generalize (List.filter (fun x => negb (contains_b m x) && Nat.eqb (length (t_children tb x)) 0
                                && keqb (t_kind tb x) (t_kind ta a)) (t_children tb b)).
    generalize (List.filter (fun x => negb (contains_b m' x) && Nat.eqb (length (t_children tb' x)) 0
                                && keqb (t_kind tb' x) (t_kind ta' a')) (t_children tb' b')).
    intros l' l Hl.
    match goal with |- option_Forall2 _ match ?x with _ => _ end match ?y with _ => _ end =>
      assert (option_Forall2 Rb x y) as [u v Huv|] end.
    { apply rel_find; [|done]. intros x y Hxy.
      by rewrite (dr_position _ _ _ DA a a' Ha), (dr_position _ _ _ DB x y Hxy), (dr_hash _ _ _ DA a a' Ha), (dr_hash _ _ _ DB x y Hxy). }
    { by constructor. }
    match goal with |- option_Forall2 _ match ?x with _ => _ end match ?y with _ => _ end =>
      assert (option_Forall2 Rb x y) as [u v Huv|] end.
    { apply rel_find; [|done]. intros x y Hxy. by rewrite (dr_hash _ _ _ DA a a' Ha), (dr_hash _ _ _ DB x y Hxy). }
    { by constructor. }
    apply rel_find; [|done]. intros x y Hxy.
    by rewrite (dr_position _ _ _ DA a a' Ha), (dr_position _ _ _ DB x y Hxy), (sim_rel a a' x y).
  Qed.

  Lemma leaf_global_rel m m' a a' l l' : mr m m' -> Ra a a' -> Forall2 Rb l l' ->
    forall o o', option_Forall2 Rb o o' ->
    option_Forall2 Rb (leaf_global heqb sim cfg ta tb m a l o) (leaf_global heqb sim cfg ta' tb' m' a' l' o').
  Proof using DA DB.
    intros M Ha Hl. induction Hl as [|x y l l' Hxy Hl IH]; intros o o' Ho; cbn [leaf_global]; [done|].
    rewrite (contains_b_rel m m' x y M Hxy), (nchildren_rel x y Hxy), (ancestry_rel m m' a a' x y M Ha Hxy),
      (dr_hash _ _ _ DA a a' Ha), (dr_hash _ _ _ DB x y Hxy), (sim_rel a a' x y Ha Hxy).
    destruct (contains_b m' y); [by apply IH|]. destruct (negb _); [by apply IH|]. destruct (negb _); [by apply IH|].
    destruct (heqb _ _); [by constructor|]. destruct Ho as [u v Huv|]; [apply IH; by constructor|].
    destruct (ge_thr _ _); apply IH; by constructor.
  Qed.

  Lemma pass2_rel o o' l l' m m' a a' : Forall2 Ra o o' -> Forall2 Rb l l' -> mr m m' -> Ra a a' ->
    mr (pass2_step heqb keqb sim cfg ta tb o l m a) (pass2_step heqb keqb sim cfg ta' tb' o' l' m' a').
  Proof using DA DB.
    intros Ho Hl M Ha. unfold pass2_step. rewrite (contains_a_rel m m' a a' M Ha), (ra_mem a a' o o' Ha Ho).
    destruct (_ || _); [done|]. rewrite (Forall2_length _ _ _ (dr_children _ _ _ DA a a' Ha)).
    destruct (negb _); [done|]. cbn zeta.
    match goal with |- mr match ?x with _ => _ end match ?y with _ => _ end =>
      assert (option_Forall2 Rb x y) as [u v Huv|] end; [|by apply mrel_add|done].
    destruct (matched_parent_rel m m' a a' M Ha) as [p p' Hp|]; [by apply leaf_candidate_rel|].
    apply leaf_global_rel; [done|done|by apply by_kind_rel|constructor].
  Qed.

  Lemma bottom_up_rel m m' : mr m m' ->
    mr (bottom_up heqb keqb sim cfg ta tb m) (bottom_up heqb keqb sim cfg ta' tb' m').
  Proof using DA DB.
    intros M. unfold bottom_up. cbn zeta.
    pose proof (opaque_desc_rel Ra ta ta' DA) as OA. pose proof (opaque_desc_rel Rb tb tb' DB) as OB.
    pose proof (b_index_rel m m' _ _ M OB) as HI.
    eapply (rel_fold Ra mr); [|apply DA|].
    { intros c d x y Hc Hxy. by apply pass2_rel. }
    eapply (rel_fold Ra mr); [|apply DA|done]. intros c d x y Hc Hxy. by apply pass1_rel.
  Qed.

  Lemma compute_matching_rel :
    orel mr (compute_matching heqb keqb sim cfg ta tb) (compute_matching heqb keqb sim cfg ta' tb').
  Proof using DA DB.
    unfold compute_matching. destruct (top_down_rel _ _ (mrel_empty Ra Rb)) as [m m' M|]; [|done].
    by apply bottom_up_rel.
  Qed.

  (** *** Edit script *)

  Context {C : Type}.
  Variable teqb : T -> T -> bool.
  Variable p_empty : P -> bool.
  Variable p_diff : P -> P -> C.
  Variable c_any_different : C -> bool.
  Variable c_len : C -> nat.
  Variable p_len : P -> nat.

  (** The same operation under other names. *)
  Inductive oprel : edit_op K T C -> edit_op K T C -> Prop :=
  | OUpdate a a' b b' c : Ra a a' -> Rb b b' -> oprel (UpdateProperties a b c) (UpdateProperties a' b' c)
  | OInsert b b' p p' pos k : Rb b b' -> Rb p p' -> oprel (Insert b p pos k) (Insert b' p' pos k)
  | ODelete a a' : Ra a a' -> oprel (Delete a) (Delete a')
  | OMove a a' b b' p p' pos : Ra a a' -> Rb b b' -> Rb p p' -> oprel (Move a b p pos) (Move a' b' p' pos)
  | OSetText a a' b b' t : Ra a a' -> Rb b b' -> oprel (SetText a b t) (SetText a' b' t).

  Lemma edit_script_rel m m' : mr m m' ->
    Forall2 oprel
      (generate_edit_script teqb p_empty p_diff c_any_different c_len p_len ta tb m)
      (generate_edit_script teqb p_empty p_diff c_any_different c_len p_len ta' tb' m').
  Proof using DA DB.
    intros M. unfold generate_edit_script, edit_script_with.
    pose proof (opaque_desc_rel Ra ta ta' DA) as OA. pose proof (opaque_desc_rel Rb tb tb' DB) as OB.
    repeat apply Forall2_app.
    - eapply rel_flat_map; [|apply M]. intros [a b] [a' b'] [Ha Hb]. cbn [fst snd] in *. unfold phase1.
      rewrite (ra_mem a a' _ _ Ha OA), (rb_mem b b' _ _ Hb OB). destruct (_ || _); [constructor|].
      rewrite (dr_text _ _ _ DA a a' Ha), (dr_text _ _ _ DB b b' Hb), (dr_props _ _ _ DA a a' Ha), (dr_props _ _ _ DB b b' Hb).
      apply Forall2_app.
      + destruct (otext_eqb _ _ _); [constructor|]. destruct (t_text tb' b'); [|constructor]. by repeat constructor.
      + destruct (_ && _); [constructor|]. cbn zeta. destruct (_ || _); by repeat constructor.
    - eapply rel_flat_map; [|apply DB]. intros b b' Hb. unfold phase2.
      rewrite (contains_b_rel m m' b b' M Hb). destruct (contains_b _ _); [constructor|].
      destruct (dr_parent _ _ _ DB b b' Hb) as [p p' Hp|]; [|constructor].
      rewrite (rb_mem b b' _ _ Hb OB). destruct (mem _ _); [constructor|].
      rewrite (dr_position _ _ _ DB b b' Hb), (dr_kind _ _ _ DB b b' Hb). by repeat constructor.
    - eapply rel_flat_map; [|apply M]. intros [a b] [a' b'] [Ha Hb]. cbn [fst snd] in *. unfold phase4.
      rewrite (ra_mem a a' _ _ Ha OA), (rb_mem b b' _ _ Hb OB). destruct (_ || _); [constructor|].
      destruct (dr_parent _ _ _ DA a a' Ha) as [p p' Hp|]; [|constructor].
      destruct (dr_parent _ _ _ DB b b' Hb) as [q q' Hq|]; [|constructor].
      rewrite (dr_position _ _ _ DA a a' Ha), (dr_position _ _ _ DB b b' Hb).
      match goal with |- Forall2 _ (if ?x then _ else _) (if ?y then _ else _) => assert (x = y) as -> end.
      { destruct (mr_b _ _ _ _ M p p' Hp) as [u v Huv|]; [|done]. f_equal. by apply rb_eqb. }
      match goal with |- Forall2 _ (if ?x then _ else _) _ => destruct x end; [by repeat constructor|].
      destruct (negb _); by repeat constructor.
    - eapply rel_flat_map; [|apply DA]. intros a a' Ha. unfold phase5.
      rewrite (contains_a_rel m m' a a' M Ha). destruct (contains_a _ _); [constructor|].
      rewrite (ra_mem a a' _ _ Ha OA). destruct (mem _ _); by repeat constructor.
  Qed.
End Rename.
