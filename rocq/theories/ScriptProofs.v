(** What the edit script contains. Properties C05-C09, C32. *)
From Verif Require Import Base Arena Matching Chawathe ArenaProofs MatchProofs TreeProofs DtreeProofs.

Section Script.
  Context {H K P T C : Type}.
  Variable teqb : T -> T -> bool.
  Variable p_empty : P -> bool.
  Variable p_diff : P -> P -> C.
  Variable c_any_different : C -> bool.
  Variable c_len : C -> nat.
  Variable p_len : P -> nat.
  Variables ta tb : dtree H K P T.
  Variable m : matching.

  Notation script := (generate_edit_script teqb p_empty p_diff c_any_different c_len p_len ta tb m).
  Notation opa := (opaque_descendants ta).
  Notation opb := (opaque_descendants tb).
  Notation ph1 := (phase1 (K:=K) teqb p_empty p_diff c_any_different c_len p_len ta tb opa opb).
  Notation ph2 := (phase2 (C:=C) tb m opb).
  Notation ph4 := (phase4 (C:=C) ta tb m opa opb).
  Notation ph5 := (phase5 (K:=K) (T:=T) (C:=C) m opa).

  Definition inserts_of (b : nat) (op : edit_op K T C) : bool :=
    match op with Insert b' _ _ _ => Nat.eqb b' b | _ => false end.
  Definition deletes_of (a : nat) (op : edit_op K T C) : bool :=
    match op with Delete a' => Nat.eqb a' a | _ => false end.
  Definition moves_of (a : nat) (op : edit_op K T C) : bool :=
    match op with Move a' _ _ _ => Nat.eqb a' a | _ => false end.
  (** The old node an operation acts on. *)
  Definition op_old (op : edit_op K T C) : option nat :=
    match op with
    | UpdateProperties a _ _ | Delete a | Move a _ _ _ | SetText a _ _ => Some a
    | Insert _ _ _ _ => None
    end.

  Lemma script_eq : script = flat_map ph1 (m_pairs m) ++ flat_map ph2 (t_iter tb)
    ++ flat_map ph4 (m_pairs m) ++ flat_map ph5 (t_post ta).
  Proof. reflexivity. Qed.

  Lemma in_ph1 op p : op ∈ ph1 p ->
    exists a b, p = (a, b) /\ a ∉ opa /\ b ∉ opb /\
    ((exists s, op = SetText a b s) \/ (exists c, op = UpdateProperties a b c)).
  Proof.
    destruct p as [a b]. unfold phase1.
    destruct (mem a opa) eqn:Ea; [intros Hop; inversion Hop|].
    destruct (mem b opb) eqn:Eb; [intros Hop; inversion Hop|]. simpl.
    apply mem_false in Ea, Eb. intros Hop. exists a, b. split_and!; [done..|].
    apply elem_of_app in Hop as [Hop|Hop].
    - destruct (otext_eqb _ _ _); [inversion Hop|].
      destruct (t_text tb b); [|inversion Hop].
      apply elem_of_list_singleton in Hop as ->. left; eauto.
    - destruct (_ && _); [inversion Hop|].
      destruct (_ || _); [|inversion Hop].
      apply elem_of_list_singleton in Hop as ->. right; eauto.
  Qed.

  Lemma in_ph2 op b : op ∈ ph2 b ->
    get_a m b = None /\ b ∉ opb /\
    exists p, t_parent tb b = Some p /\ op = Insert b p (t_position tb b) (t_kind tb b).
  Proof.
    unfold phase2. destruct (contains_b m b) eqn:Cb; [intros Hop; inversion Hop|].
    destruct (t_parent tb b) as [p|]; [|intros Hop; inversion Hop].
    destruct (mem b opb) eqn:Eb; [intros Hop; inversion Hop|].
    apply contains_b_false in Cb. apply mem_false in Eb.
    intros Hop. apply elem_of_list_singleton in Hop as ->. eauto 10.
  Qed.

  Lemma in_ph4 op p : op ∈ ph4 p ->
    exists a b pa pb, p = (a, b) /\ a ∉ opa /\ b ∉ opb /\
      t_parent ta a = Some pa /\ t_parent tb b = Some pb /\
      op = Move a b pb (t_position tb b) /\
      ~ (get_b m pa = Some pb /\ t_position ta a = t_position tb b).
  Proof.
    destruct p as [a b]. unfold phase4.
    destruct (mem a opa) eqn:Ea; [intros Hop; inversion Hop|].
    destruct (mem b opb) eqn:Eb; [intros Hop; inversion Hop|]. simpl.
    apply mem_false in Ea, Eb.
    destruct (t_parent ta a) as [pa|] eqn:Epa; [|intros Hop; inversion Hop].
    destruct (t_parent tb b) as [pb|] eqn:Epb; [|intros Hop; inversion Hop].
    intros Hop. exists a, b, pa, pb. split_and!; try done.
    - destruct (match get_b m pa with Some _ => _ | None => _ end).
      + by apply elem_of_list_singleton in Hop.
      + destruct (negb _); [by apply elem_of_list_singleton in Hop|inversion Hop].
    - intros [E1 E2]. rewrite E1, Nat.eqb_refl, E2, Nat.eqb_refl in Hop. inversion Hop.
  Qed.

  Lemma in_ph5 op a : op ∈ ph5 a -> get_b m a = None /\ a ∉ opa /\ op = Delete a.
  Proof.
    unfold phase5. destruct (contains_a m a) eqn:Ca; [intros Hop; inversion Hop|].
    destruct (mem a opa) eqn:Ea; [intros Hop; inversion Hop|].
    apply contains_a_false in Ca. apply mem_false in Ea.
    intros Hop. by apply elem_of_list_singleton in Hop.
  Qed.

  Lemma in_script op : op ∈ script ->
    (exists p, p ∈ m_pairs m /\ op ∈ ph1 p) \/ (exists b, b ∈ t_iter tb /\ op ∈ ph2 b) \/
    (exists p, p ∈ m_pairs m /\ op ∈ ph4 p) \/ (exists a, a ∈ t_post ta /\ op ∈ ph5 a).
  Proof. rewrite script_eq, !elem_of_app, !elem_flat_map. tauto. Qed.

  Lemma filter_nil {A} (f : A -> bool) l :
    (forall x, x ∈ l -> f x = false) -> List.filter f l = [].
  Proof.
    induction l as [|x l IH]; intros Hl; simpl; [done|].
    rewrite Hl by left. apply IH. intros; apply Hl; by right.
  Qed.

  Lemma filter_flat_map_one {A B} (f : B -> bool) (g : A -> list B) l x :
    NoDup l -> x ∈ l ->
    (forall y, y ∈ l -> y <> x -> List.filter f (g y) = []) ->
    List.filter f (flat_map g l) = List.filter f (g x).
  Proof.
    induction l as [|y l IH]; intros Hnd Hx Hz; [inversion Hx|].
    inversion Hnd as [|? ? Hy Hnd']; subst. simpl. rewrite List.filter_app.
    apply elem_of_cons in Hx as [->|Hx].
    - assert (List.filter f (flat_map g l) = []) as ->; [|by rewrite app_nil_r].
      apply filter_nil. intros z Hzin. apply elem_flat_map in Hzin as (u & Hu & Hzu).
      assert (List.filter f (g u) = []) as E by (apply Hz; [by right|congruence]).
      destruct (f z) eqn:Ez; [|done].
      assert (z ∈ List.filter f (g u)) as Hbad by (apply lfilter_elem; done).
      rewrite E in Hbad. inversion Hbad.
    - rewrite (Hz y); [|left|congruence]. simpl. apply IH; [done|done|].
      intros u Hu. apply Hz. by right.
  Qed.

  Lemma filter_flat_map_none {A B} (f : B -> bool) (g : A -> list B) l :
    (forall y z, y ∈ l -> z ∈ g y -> f z = false) -> List.filter f (flat_map g l) = [].
  Proof.
    intros Hz. apply filter_nil. intros z Hin. apply elem_flat_map in Hin as (y & ? & ?). eauto.
  Qed.

  (** C06 *)
  Lemma script_insert_inv b p pos k :
    Insert b p pos k ∈ script ->
    b ∈ t_iter tb /\ get_a m b = None /\ b ∉ opb /\
    t_parent tb b = Some p /\ pos = t_position tb b /\ k = t_kind tb b.
  Proof.
    intros Hop. apply in_script in Hop as [(q & _ & Hop)|[(b' & Hb & Hop)|[(q & _ & Hop)|(a & _ & Hop)]]].
    - apply in_ph1 in Hop as (? & ? & ? & ? & ? & [[? ?]|[? ?]]); done.
    - apply in_ph2 in Hop as (? & ? & p' & ? & [= -> -> -> ->]). auto 10.
    - apply in_ph4 in Hop as (? & ? & ? & ? & ? & ? & ? & ? & ? & ? & ?). done.
    - by apply in_ph5 in Hop as (? & ? & ?).
  Qed.

  Lemma script_inserts_once b p :
    NoDup (t_iter tb) -> b ∈ t_iter tb -> get_a m b = None -> b ∉ opb -> t_parent tb b = Some p ->
    List.filter (inserts_of b) script = [Insert b p (t_position tb b) (t_kind tb b)].
  Proof.
    intros Hnd Hb Ha Ho Hp. rewrite script_eq, !List.filter_app.
    rewrite (filter_flat_map_none _ ph1).
    2:{ intros q z _ Hz. apply in_ph1 in Hz as (? & ? & ? & ? & ? & [[? ->]|[? ->]]); done. }
    rewrite (filter_flat_map_none _ ph4).
    2:{ intros q z _ Hz. apply in_ph4 in Hz as (? & ? & ? & ? & ? & ? & ? & ? & ? & -> & ?). done. }
    rewrite (filter_flat_map_none _ ph5).
    2:{ intros q z _ Hz. by apply in_ph5 in Hz as (? & ? & ->). }
    simpl. rewrite !app_nil_r. rewrite (filter_flat_map_one _ _ _ b).
    - unfold phase2. apply contains_b_false in Ha. apply mem_false in Ho.
      rewrite Ha, Hp, Ho. simpl. by rewrite Nat.eqb_refl.
    - done.
    - done.
    - intros y Hy Hne. apply filter_nil. intros z Hz.
      apply in_ph2 in Hz as (_ & _ & p' & _ & ->). simpl. by apply Nat.eqb_neq.
  Qed.

  (** C07 *)
  Lemma script_delete_inv a : Delete a ∈ script ->
    a ∈ t_post ta /\ get_b m a = None /\ a ∉ opa.
  Proof.
    intros Hop. apply in_script in Hop as [(q & _ & Hop)|[(b' & Hb & Hop)|[(q & _ & Hop)|(a' & Ha' & Hop)]]].
    - apply in_ph1 in Hop as (? & ? & ? & ? & ? & [[? ?]|[? ?]]); done.
    - by apply in_ph2 in Hop as (? & ? & p' & ? & ?).
    - apply in_ph4 in Hop as (? & ? & ? & ? & ? & ? & ? & ? & ? & ? & ?). done.
    - apply in_ph5 in Hop as (? & ? & [= ->]). auto.
  Qed.

  Lemma script_deletes_once a :
    NoDup (t_post ta) -> a ∈ t_post ta -> get_b m a = None -> a ∉ opa ->
    List.filter (deletes_of a) script = [Delete a].
  Proof.
    intros Hnd Ha Hm Ho. rewrite script_eq, !List.filter_app.
    rewrite (filter_flat_map_none _ ph1).
    2:{ intros q z _ Hz. apply in_ph1 in Hz as (? & ? & ? & ? & ? & [[? ->]|[? ->]]); done. }
    rewrite (filter_flat_map_none _ ph4).
    2:{ intros q z _ Hz. apply in_ph4 in Hz as (? & ? & ? & ? & ? & ? & ? & ? & ? & -> & ?). done. }
    rewrite (filter_flat_map_none _ ph2).
    2:{ intros q z _ Hz. by apply in_ph2 in Hz as (? & ? & ? & ? & ->). }
    simpl. rewrite (filter_flat_map_one _ _ _ a).
    - unfold phase5. apply contains_a_false in Hm. apply mem_false in Ho.
      rewrite Hm, Ho. simpl. by rewrite Nat.eqb_refl.
    - done.
    - done.
    - intros y Hy Hne. apply filter_nil. intros z Hz.
      apply in_ph5 in Hz as (_ & _ & ->). simpl. by apply Nat.eqb_neq.
  Qed.

  Lemma script_delete_order x a :
    before (t_post ta) x a -> Delete x ∈ script -> Delete a ∈ script ->
    before script (Delete x) (Delete a).
  Proof.
    intros Hb Hx Ha. apply script_delete_inv in Hx as (_ & Hx & Hox).
    apply script_delete_inv in Ha as (_ & Ha & Hoa).
    rewrite script_eq. do 3 apply before_app_r.
    eapply before_flat_map; [done| |]; unfold phase5.
    - apply contains_a_false in Hx. apply mem_false in Hox. rewrite Hx, Hox. left.
    - apply contains_a_false in Ha. apply mem_false in Hoa. rewrite Ha, Hoa. left.
  Qed.

  (** C08 *)
  Lemma script_move_inv a b pb pos : Move a b pb pos ∈ script ->
    (a, b) ∈ m_pairs m /\ a ∉ opa /\ b ∉ opb /\ t_parent tb b = Some pb /\
    pos = t_position tb b /\
    exists pa, t_parent ta a = Some pa /\
      ~ (get_b m pa = Some pb /\ t_position ta a = t_position tb b).
  Proof.
    intros Hop. apply in_script in Hop as [(q & _ & Hop)|[(b' & Hb & Hop)|[(q & Hq & Hop)|(a' & Ha' & Hop)]]].
    - apply in_ph1 in Hop as (? & ? & ? & ? & ? & [[? ?]|[? ?]]); done.
    - by apply in_ph2 in Hop as (? & ? & p' & ? & ?).
    - apply in_ph4 in Hop as (a' & b' & pa & pb' & -> & ? & ? & ? & ? & [= -> -> -> ->] & ?).
      split_and!; eauto.
    - by apply in_ph5 in Hop as (? & ? & ?).
  Qed.

  Lemma script_moves_of a b :
    NoDup (map fst (m_pairs m)) -> (a, b) ∈ m_pairs m ->
    List.filter (moves_of a) script = ph4 (a, b).
  Proof.
    intros Hnd Hab. rewrite script_eq, !List.filter_app.
    rewrite (filter_flat_map_none _ ph1).
    2:{ intros q z _ Hz. apply in_ph1 in Hz as (? & ? & ? & ? & ? & [[? ->]|[? ->]]); done. }
    rewrite (filter_flat_map_none _ ph2).
    2:{ intros q z _ Hz. by apply in_ph2 in Hz as (? & ? & ? & ? & ->). }
    rewrite (filter_flat_map_none _ ph5).
    2:{ intros q z _ Hz. by apply in_ph5 in Hz as (? & ? & ->). }
    rewrite app_nil_l, app_nil_l, app_nil_r. rewrite (filter_flat_map_one _ _ _ (a, b)).
    - assert (forall l, (forall z, z ∈ l -> moves_of a z = true) ->
              List.filter (moves_of a) l = l) as Hall.
      { induction l as [|z l IH]; intros Hl; simpl; [done|]. rewrite Hl by left.
        f_equal. apply IH. intros; apply Hl; by right. }
      apply Hall. intros z Hz.
      apply in_ph4 in Hz as (? & ? & ? & ? & [= <- <-] & ? & ? & ? & ? & -> & ?).
      simpl. apply Nat.eqb_refl.
    - by apply NoDup_fmap_1 in Hnd.
    - done.
    - intros [x y] Hy Hne. apply filter_nil. intros z Hz.
      apply in_ph4 in Hz as (x' & y' & ? & ? & [= <- <-] & ? & ? & ? & ? & -> & ?).
      simpl. apply Nat.eqb_neq. intros ->. apply Hne.
      clear -Hnd Hab Hy. induction (m_pairs m) as [|[u v] l IH]; simpl in *; [inversion Hab|].
      inversion Hnd as [|? ? Hu Hnd']; subst.
      apply elem_of_cons in Hab as [Hab|Hab]; apply elem_of_cons in Hy as [Hy|Hy].
      + congruence.
      + exfalso. apply Hu. apply elem_of_list_fmap. injection Hab as -> ->. by exists (u, y).
      + exfalso. apply Hu. apply elem_of_list_fmap. injection Hy as -> ->. by exists (u, b).
      + auto.
  Qed.

  Lemma script_moves_spec a b pa pb :
    NoDup (map fst (m_pairs m)) -> (a, b) ∈ m_pairs m ->
    a ∉ opa -> b ∉ opb -> t_parent ta a = Some pa -> t_parent tb b = Some pb ->
    (get_b m pa = Some pb /\ t_position ta a = t_position tb b ->
       List.filter (moves_of a) script = []) /\
    (~ (get_b m pa = Some pb /\ t_position ta a = t_position tb b) ->
       List.filter (moves_of a) script = [Move a b pb (t_position tb b)]).
  Proof.
    intros Hnd Hab Ha Hb Hpa Hpb. rewrite (script_moves_of a b) by done.
    unfold phase4. apply mem_false in Ha, Hb. rewrite Ha, Hb, Hpa, Hpb. simpl. split.
    - intros [-> ->]. by rewrite !Nat.eqb_refl.
    - intros Hn. destruct (get_b m pa) as [x|]; [|done].
      destruct (Nat.eqb_spec x pb) as [->|]; [|done]. simpl.
      destruct (Nat.eqb_spec (t_position ta a) (t_position tb b)); [|done].
      exfalso. apply Hn. done.
  Qed.

  (** C09 *)
  Lemma script_insert_order p b ip pp kp ib pb kb :
    before (t_iter tb) p b ->
    Insert p ip pp kp ∈ script -> Insert b ib pb kb ∈ script ->
    before script (Insert p ip pp kp) (Insert b ib pb kb).
  Proof.
    intros Hb Hx Ha. apply script_insert_inv in Hx as (_ & Hx & Hox & Hpx & -> & ->).
    apply script_insert_inv in Ha as (_ & Ha & Hoa & Hpa & -> & ->).
    rewrite script_eq. apply before_app_r, before_app_l.
    eapply before_flat_map; [done| |]; unfold phase2.
    - apply contains_b_false in Hx. apply mem_false in Hox. rewrite Hx, Hpx, Hox. left.
    - apply contains_b_false in Ha. apply mem_false in Hoa. rewrite Ha, Hpa, Hoa. left.
  Qed.

  Definition phase_of (op : edit_op K T C) : nat :=
    match op with
    | UpdateProperties _ _ _ | SetText _ _ _ => 1
    | Insert _ _ _ _ => 2
    | Move _ _ _ _ => 3
    | Delete _ => 4
    end.

  Lemma script_phases l1 x l2 y l3 :
    script = l1 ++ x :: l2 ++ y :: l3 -> phase_of x <= phase_of y.
  Proof.
    rewrite script_eq. intros E.
    assert (forall op, op ∈ flat_map ph1 (m_pairs m) -> phase_of op = 1) as H1.
    { intros op Hop. apply elem_flat_map in Hop as (? & _ & Hop).
      apply in_ph1 in Hop as (? & ? & ? & ? & ? & [[? ->]|[? ->]]); done. }
    assert (forall op, op ∈ flat_map ph2 (t_iter tb) -> phase_of op = 2) as H2.
    { intros op Hop. apply elem_flat_map in Hop as (? & _ & Hop).
      by apply in_ph2 in Hop as (? & ? & ? & ? & ->). }
    assert (forall op, op ∈ flat_map ph4 (m_pairs m) -> phase_of op = 3) as H4.
    { intros op Hop. apply elem_flat_map in Hop as (? & _ & Hop).
      apply in_ph4 in Hop as (? & ? & ? & ? & ? & ? & ? & ? & ? & -> & ?). done. }
    assert (forall op, op ∈ flat_map ph5 (t_post ta) -> phase_of op = 4) as H5.
    { intros op Hop. apply elem_flat_map in Hop as (? & _ & Hop).
      by apply in_ph5 in Hop as (? & ? & ->). }
    revert H1 H2 H4 H5 E.
    generalize (flat_map ph1 (m_pairs m)) as A, (flat_map ph2 (t_iter tb)) as B,
      (flat_map ph4 (m_pairs m)) as D, (flat_map ph5 (t_post ta)) as F.
    intros A B D F H1 H2 H4 H5 E.
    assert (forall A (n : nat) (R l1 : list (edit_op K T C)),
      (forall op, op ∈ A -> phase_of op = n) ->
      (forall op, op ∈ R -> n <= phase_of op) ->
      (forall l1, R = l1 ++ x :: l2 ++ y :: l3 -> phase_of x <= phase_of y) ->
      A ++ R = l1 ++ x :: l2 ++ y :: l3 -> phase_of x <= phase_of y) as Hstep.
    { clear. intros A n R. induction A as [|z A IH]; intros l1 HA HR Hrec E; simpl in E; [eauto|].
      destruct l1 as [|w l1]; simpl in E; injection E as -> E.
      - rewrite (HA x) by left.
        assert (y ∈ A ++ R) as Hy by (rewrite E; apply elem_of_app; right; left).
        apply elem_of_app in Hy as [Hy|Hy]; [rewrite (HA y) by (by right); lia|auto].
      - eapply IH; [intros; apply HA; by right|done|done|exact E]. }
    eapply (Hstep A 1); [done| | |exact E].
    { intros op Hop. rewrite !elem_of_app in Hop.
      destruct Hop as [Hop|[Hop|Hop]]; [rewrite H2|rewrite H4|rewrite H5]; auto. }
    intros l1' E1. eapply (Hstep B 2); [done| | |exact E1].
    { intros op Hop. rewrite !elem_of_app in Hop.
      destruct Hop as [Hop|Hop]; [rewrite H4|rewrite H5]; auto. }
    intros l1'' E2. eapply (Hstep D 3); [done| | |exact E2].
    { intros op Hop. rewrite H5; auto. }
    intros l1''' E3. rewrite (H5 x), (H5 y); [done| |]; rewrite E3;
      rewrite ?elem_of_app, ?elem_of_cons, ?elem_of_app, ?elem_of_cons; tauto.
  Qed.

  (** C05, the script part. *)
  Lemma script_old_not_opaque op a : op ∈ script -> op_old op = Some a -> a ∉ opa.
  Proof.
    intros Hop E. apply in_script in Hop as [(q & _ & Hop)|[(b' & Hb & Hop)|[(q & Hq & Hop)|(a' & Ha' & Hop)]]].
    - apply in_ph1 in Hop as (? & ? & ? & ? & ? & [[? ->]|[? ->]]); simpl in E; congruence.
    - by apply in_ph2 in Hop as (? & ? & p' & ? & ->).
    - apply in_ph4 in Hop as (? & ? & ? & ? & ? & ? & ? & ? & ? & -> & ?). simpl in E; congruence.
    - apply in_ph5 in Hop as (? & ? & ->). simpl in E; congruence.
  Qed.

  (** C32 *)
  Lemma flat_map_length_le {A B} (f : A -> list B) n l :
    (forall x, length (f x) <= n) -> length (flat_map f l) <= n * length l.
  Proof.
    intros Hf. induction l as [|x l IH]; simpl; [lia|]. rewrite app_length.
    specialize (Hf x). lia.
  Qed.

  Lemma flat_map_length_filter {A B} (f : A -> list B) (g : A -> bool) l :
    (forall x, length (f x) <= 1) -> (forall x, g x = false -> f x = []) ->
    length (flat_map f l) <= length (List.filter g l).
  Proof.
    intros Hf Hg. induction l as [|x l IH]; simpl; [lia|]. rewrite app_length.
    specialize (Hf x). destruct (g x) eqn:E; simpl; [lia|]. rewrite (Hg x E). simpl. lia.
  Qed.

  Lemma script_length :
    length script <= 3 * length (m_pairs m)
      + length (List.filter (fun b => negb (contains_b m b)) (t_iter tb))
      + length (List.filter (fun a => negb (contains_a m a)) (t_post ta)).
  Proof.
    rewrite script_eq, !app_length.
    assert (length (flat_map ph1 (m_pairs m)) <= 2 * length (m_pairs m)).
    { apply flat_map_length_le. intros [a b]. unfold phase1.
      destruct (_ || _); [simpl; lia|]. rewrite app_length.
      destruct (otext_eqb _ _ _); [|destruct (t_text tb b)];
      (destruct (_ && _); [|destruct (_ || _)]); simpl; lia. }
    assert (length (flat_map ph4 (m_pairs m)) <= 1 * length (m_pairs m)).
    { apply flat_map_length_le. intros [a b]. unfold phase4.
      destruct (_ || _); [simpl; lia|]. destruct (t_parent ta a); [|simpl; lia].
      destruct (t_parent tb b); [|simpl; lia].
      destruct (match get_b m n with Some _ => _ | None => _ end); [simpl; lia|].
      destruct (negb _); simpl; lia. }
    assert (length (flat_map ph2 (t_iter tb))
            <= length (List.filter (fun b => negb (contains_b m b)) (t_iter tb))).
    { apply flat_map_length_filter; intros b; unfold phase2; destruct (contains_b m b); simpl;
      try done; try lia. destruct (t_parent tb b); [|simpl; lia]. destruct (mem _ _); simpl; lia. }
    assert (length (flat_map ph5 (t_post ta))
            <= length (List.filter (fun a => negb (contains_a m a)) (t_post ta))).
    { apply flat_map_length_filter; intros a; unfold phase5; destruct (contains_a m a); simpl;
      try done; try lia. destruct (mem _ _); simpl; lia. }
    lia.
  Qed.
End Script.
