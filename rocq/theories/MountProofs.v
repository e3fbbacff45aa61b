(** The element patches are applied to keeps its own tag and attributes as long
    as no patch is meant for it; and no patch of a comparison is, if the new body
    has no attributes. *)
From stdpp Require Import list_numbers.
From Verif Require Import Base Arena Matching Chawathe Dom HtmlDiff Browser ArenaProofs ArenaOps TreeProofs DomTree
  ApplyProofs FrameProofs DtreeProofs MatchProofs BuildProofs ScriptProofs ShadowProofs ConvProofs RoundProofs AssembleProofs NestProofs
  RestyleProofs PayloadProofs BrowserProofs BrowserFrame.
Local Open Scope string_scope.

(** A patch that changes tag, attributes or text of the root itself. *)
Definition edits_root (p : patch) : bool :=
  match p with
  | PSetText [0] _ | PSetAttribute [0] _ _ | PRemoveAttribute [0] _ | PUpdateProps [0] _ => true
  | _ => false
  end.

(** ** Data of existing nodes *)

Definition dext (a a' : arena dnode) : Prop :=
  length a <= length a' /\ forall j, j < length a -> data a' j = data a j.

Lemma dext_refl a : dext a a.
Proof. done. Qed.
Lemma dext_trans a b c : dext a b -> dext b c -> dext a c.
Proof. intros [L1 D1] [L2 D2]. split; [lia|]. intros j Hj. rewrite D2 by lia. by apply D1. Qed.
Lemma dext_new a d : dext a (fst (new_node a d)).
Proof.
  split; [rewrite length_new; lia|]. intros j Hj. rewrite data_new. destruct (Nat.eqb_spec j (length a)); [lia|done].
Qed.
Lemma dext_detach a i : dext a (detach a i).
Proof. split; [by rewrite length_detach|]. intros j _. apply data_detach. Qed.
Lemma dext_detach_all l : forall a, dext a (detach_all a l).
Proof.
  induction l as [|i l IH]; intros a; [apply dext_refl|]. cbn. eapply dext_trans; [apply (dext_detach a i)|apply IH].
Qed.
Lemma dext_append a p c a' : append a p c = Val a' -> dext a a'.
Proof.
  unfold append. destruct (Nat.eqb p c); [done|]. destruct (is_ancestor a c p) as [[]|]; try done. intros [= <-].
  split; [by rewrite length_set_parent, length_set_children, length_detach|].
  intros j _. by rewrite data_set_parent, data_set_children, data_detach.
Qed.
Lemma dext_insert_before a s n a' : insert_before a s n = Val a' -> dext a a'.
Proof.
  unfold insert_before. destruct (Nat.eqb s n); [done|]. destruct (parent (detach a n) s) as [p|].
  - destruct (Nat.eqb p n); [done|]. intros [= <-].
    split; [by rewrite length_set_parent, length_set_children, length_detach|].
    intros j _. by rewrite data_set_parent, data_set_children, data_detach.
  - intros [= <-]. apply dext_detach.
Qed.
Lemma dext_dom_append a p c a' : dom_append a p c = Val a' -> dext a a'.
Proof. unfold dom_append. destruct (append a p c) eqn:E; try done. intros [= <-]. by apply (dext_append a p c). Qed.
Lemma dext_fill d n : forall a p a', fill_gaps n d a p = Val a' -> dext a a'.
Proof.
  induction n as [|n IH]; intros a p a'; [by intros [= <-]|]. cbn [fill_gaps].
  change (new_node a d) with (fst (new_node a d), length a). cbv beta iota. intros E. bnd E x E1.
  eapply dext_trans; [apply (dext_new a d)|]. eapply dext_trans; [by apply (dext_append _ _ _ _ E1)|by eapply IH].
Qed.
Lemma dext_clone h : forall a a' n, clone_tree a h = Val (a', n) -> dext a a'.
Proof.
  induction h as [s|s|t ns ats cs IH] using htree_ind'; intros a a' n; cbn [clone_tree].
  1,2: intros [= <- <-]; apply dext_new.
  set (d := mkD (NElem t ats) ns).
  change (new_node a d) with (fst (new_node a d), length a). cbv beta iota.
  pose proof (dext_new a d) as H1. revert H1. generalize (fst (new_node a d)) as a1, (length a) as m. intros a1 m H1 E.
  enough (forall a1 a2, (fix go (a : arena dnode) (l : list htree) : outcome (arena dnode) :=
           match l with
           | [] => Val a
           | c :: l' =>
               let! (a', i) := clone_tree a c in
               let! a'' := append a' m i in
               go a'' l'
           end) a1 cs = Val a2 -> dext a1 a2) as HG.
  { bnd E x E1. injection E as <- <-. eapply dext_trans; [exact H1|by apply HG]. }
  clear - IH. induction cs as [|c cs IHcs]; intros a1 a2 E; [by injection E as <-|].
  bnd E x E1. destruct x as [a3 i]. bnd E y E2.
  eapply dext_trans; [eapply (IH c); [by left|exact E1]|].
  eapply dext_trans; [by apply (dext_append _ _ _ _ E2)|]. apply IHcs; [|exact E]. intros h Hh. apply IH. by right.
Qed.

Section Frame.
  Variables valid_elem valid_attr : string -> bool.
  Variable parse_template : string -> list htree.

  Lemma dext_create c : forall a a' n, b_create valid_elem valid_attr parse_template a c = Val (a', n) -> dext a a'.
  Proof.
    induction c as [s|s|t ats cs IH] using icontent_ind'; intros a a' n; cbn [b_create].
    1,2: intros [= <- <-]; apply dext_new.
    destruct (b_create_element valid_elem valid_attr t ats) as [d|].
    2:{ unfold b_via_html. destruct (parse_template _) as [|h hs]; [done|]. apply dext_clone. }
    change (new_node a d) with (fst (new_node a d), length a). cbv beta iota.
    pose proof (dext_new a d) as H1. revert H1. generalize (fst (new_node a d)) as a1, (length a) as m. intros a1 m H1 E.
    bnd E x E1. injection E as <- <-. eapply dext_trans; [exact H1|]. clear H1.
    revert a1 x E1. induction cs as [|c cs IHcs]; intros a1 a2 E; [by injection E as <-|].
    bnd E x E1. destruct x as [a3 i]. bnd E y E2.
    eapply dext_trans; [eapply (IH c); [by left|exact E1]|].
    eapply dext_trans; [by apply (dext_dom_append _ _ _ _ E2)|]. apply IHcs; [|exact E]. intros h Hh. apply IH. by right.
  Qed.

  Lemma dext_replace a n a' : replace_by_empty a n = Val a' -> dext a a'.
  Proof.
    unfold replace_by_empty. change (new_node a (text_node "")) with (fst (new_node a (text_node "")), length a).
    cbv beta iota. intros E. bnd E x E1. injection E as <-.
    eapply dext_trans; [apply dext_new|]. eapply dext_trans; [by apply (dext_insert_before _ _ _ _ E1)|apply dext_detach].
  Qed.
  Lemma dext_vacate a n a' : vacate a n = Val a' -> dext a a'.
  Proof. unfold vacate. destruct (parent a n); [apply dext_replace|by intros [= <-]]. Qed.
  Lemma dext_replace_child a p n e a' : replace_child a p n e = Val a' -> dext a a'.
  Proof.
    unfold replace_child. destruct (Nat.eqb n p); [done|]. destruct (is_ancestor a n p) as [[]|]; try done.
    destruct (Nat.eqb n e); [by intros [= <-]|]. intros E. bnd E x E1. injection E as <-.
    eapply dext_trans; [by apply (dext_insert_before _ _ _ _ E1)|apply dext_detach].
  Qed.

  Definition grown (a : arena dnode) (r : presult) : Prop := dext a (fst (fst r)).
  Lemma grown_lift a sl o : (forall a', o = Val a' -> dext a a') -> grown a (plift (a, sl) o).
  Proof. destruct o; intros Ho; unfold grown; cbn; [by apply Ho|apply dext_refl..]. Qed.
  Lemma grown_lift_from a a1 sl o : dext a a1 -> (forall a', o = Val a' -> dext a1 a') -> grown a (plift (a1, sl) o).
  Proof. intros H0 Ho. eapply dext_trans; [exact H0|by apply grown_lift]. Qed.
  Lemma grown_put a sl p n pos slot : grown a (b_insert_at_position a sl p n pos slot).
  Proof.
    unfold b_insert_at_position. destruct (children a p !! pos) as [e|].
    - destruct (replace_child a p n e) as [a'| | |] eqn:E; try (by apply grown_lift).
      unfold grown. cbn [fst]. by apply (dext_replace_child a p n e).
    - destruct (fill_gaps _ _ a p) as [a1| | |] eqn:E; try (by apply grown_lift).
      apply grown_lift_from; [by eapply dext_fill|]. intros a'. apply dext_dom_append.
  Qed.
  Lemma grown_with rt a sl q f : (forall n, grown a (f n)) -> grown a (with_found rt (a, sl) q f).
  Proof. intros Hf. unfold with_found. destruct (find_node _ _ _ _); [apply Hf|apply dext_refl..]. Qed.
  Lemma grown_insert rt a sl at_ slot make :
    (forall a' n, make a = Val (a', n) -> dext a a') -> grown a (b_insert rt (a, sl) at_ slot make).
  Proof.
    intros Hm. unfold b_insert. destruct (Nat.ltb _ 2); [apply dext_refl|]. apply grown_with. intros p. cbn [fst snd].
    destruct (node_kind a p) as [[]|]; try apply dext_refl.
    destruct (make a) as [[a1 n]| | |] eqn:E; try apply dext_refl.
    eapply dext_trans; [by eapply Hm|apply grown_put].
  Qed.

  Variable a0 : arena dnode.
  Variable Out : nat -> Prop.
  Variable b : nat.
  Hypothesis Out_lt : forall j, Out j -> j < length a0.
  Hypothesis b_in : ~ Out b.
  Hypothesis b_lt : b < length a0.
  Notation framed := (framed a0 Out b).
  Notation bap := (b_apply_patch valid_elem valid_attr parse_template).

  Definition same (a : arena dnode) (r : presult) : Prop := data (fst (fst r)) b = data a b.

  Lemma grown_same a r : framed a -> grown a r -> same a r.
  Proof. intros F [_ Hd]. apply Hd. pose proof (fr_len _ _ _ _ F). lia. Qed.
  Lemma same_with a sl q f : framed a -> bsl Out b sl ->
    (forall n, (n = b -> q = [0]) -> same a (f n)) -> same a (with_found b (a, sl) q f).
  Proof.
    intros Hf Hs Hk. unfold with_found. cbn [fst snd].
    destruct (find_node b a sl q) as [n| | |] eqn:En; [|done..].
    apply Hk. by apply (find_in a0 Out b b_in a sl q n).
  Qed.
  Lemma data_set_kind_other (a : arena dnode) n k j : j <> n -> data (set_kind a n k) j = data a j.
  Proof.
    intros Hj. unfold set_kind. destruct (data a n) as [d|] eqn:Ed; [|done].
    rewrite data_set_data by (by eapply data_lt). by destruct (Nat.eqb_spec j n).
  Qed.
  Lemma same_set_text a n s a' : framed a -> n <> b -> set_text_content a n s = Val a' -> data a' b = data a b.
  Proof.
    intros Hf Hn. pose proof (fr_len _ _ _ _ Hf). unfold set_text_content.
    destruct (node_kind a n) as [[]|]; try (by intros [= <-]).
    - set (a1 := detach_all a (children a n)). assert (dext a a1) as H1 by apply dext_detach_all.
      destruct (String.eqb s ""); [intros [= <-]; apply H1; lia|].
      change (new_node a1 (text_node s)) with (fst (new_node a1 (text_node s)), length a1). cbv beta iota. intros E.
      assert (dext a a') as H2; [|apply H2; lia].
      eapply dext_trans; [exact H1|]. eapply dext_trans; [apply dext_new|by apply (dext_dom_append _ _ _ _ E)].
    - intros [= <-]. apply data_set_kind_other. congruence.
    - intros [= <-]. apply data_set_kind_other. congruence.
  Qed.
  Lemma not_root_path p q : edits_root p = false ->
    match p with
    | PSetText q' _ | PSetAttribute q' _ _ | PRemoveAttribute q' _ | PUpdateProps q' _ => q' = q
    | _ => False
    end -> q <> [0].
  Proof. intros He Hp ->. destruct p; try done; subst; done. Qed.

  Lemma apply_same a sl p : framed a -> bsl Out b sl -> edits_root p = false -> same a (bap b (a, sl) p).
  Proof.
    intros Hf Hs He. destruct p as [at_ tag ats cs slot|at_ s slot|at_ s slot|q|q s|q n v|q n|q t slot|q ch|q s];
      cbn [b_apply_patch].
    - apply (grown_same a _ Hf). apply grown_insert. intros a' n. apply dext_create.
    - apply (grown_same a _ Hf). apply grown_insert. intros a' n [= <- <-]. apply dext_new.
    - apply (grown_same a _ Hf). apply grown_insert. intros a' n [= <- <-]. apply dext_new.
    - apply (grown_same a _ Hf). destruct q as [|k rel]; [apply dext_refl|].
      destruct (negb (Nat.eqb k 0) && Nat.eqb (length rel) 0); [apply dext_refl|]. apply grown_with. intros n.
      apply grown_lift. intros a'. apply dext_vacate.
    - apply same_with; [done|done|]. intros n Hn.
      assert (n <> b) as Hnb. { intros E. by apply (not_root_path _ q He eq_refl), Hn. }
      unfold same. destruct (set_text_content a n s) eqn:E; try done. cbn. by apply (same_set_text a n s).
    - apply same_with; [done|done|]. intros m Hm.
      assert (m <> b) as Hnb. { intros E. by apply (not_root_path _ q He eq_refl), Hm. }
      unfold same. destruct (data a m) as [[[] ns]|]; try done. destruct (b_set_attr _ _ _ _); [|done].
      cbn. apply data_set_kind_other. congruence.
    - apply same_with; [done|done|]. intros m Hm.
      assert (m <> b) as Hnb. { intros E. by apply (not_root_path _ q He eq_refl), Hm. }
      unfold same. destruct (data a m) as [[[] ns]|]; try done. cbn. apply data_set_kind_other. congruence.
    - apply (grown_same a _ Hf).
      assert (forall a1 s1 n, dext a a1 -> grown a
        (if Nat.ltb (length t) 2 then ((a1, s1), Fail EmptyPath)
         else with_found b (a1, s1) (removelast t) (fun p =>
           match node_kind a1 p with
           | Some (NElem _ _) => b_insert_at_position a1 s1 p n (List.last t 0) slot
           | _ => ((a1, s1), Fail NotAnElement)
           end))) as Hput.
      { intros a1 s1 n D. eapply dext_trans; [exact D|]. destruct (Nat.ltb _ 2); [apply dext_refl|].
        apply grown_with. intros p. destruct (node_kind a1 p) as [[]|]; try apply dext_refl. apply grown_put. }
      match goal with |- grown a (match ?x with Val _ => _ | _ => _ end) => set (taken := x) end.
      assert (forall a1 s1 n, taken = Val (a1, s1, n) -> dext a a1) as Ht.
      { intros a1 s1 n. subst taken. assert ((let! n := find_node b a sl q in let! a1 := vacate a n in Val (a1, sl, n)) = Val (a1, s1, n) -> dext a a1) as HG.
        { intros E. bnd E x E1. bnd E y E2. injection E as <- <- <-. by apply (dext_vacate a x). }
        destruct q as [|k [|j q]]; [apply HG| |apply HG].
        destruct (slot_get sl k); [|done]. intros [= <- <- <-]. apply dext_refl. }
      destruct taken as [[[a1 s1] n]| | |]; try apply dext_refl. cbv zeta. apply Hput. by eapply Ht.
    - apply same_with; [done|done|]. intros n Hn. cbv zeta.
      assert (n <> b) as Hnb. { intros E. by apply (not_root_path _ q He eq_refl), Hn. }
      match goal with |- context [match ?t with Val _ => _ | _ => _ end] => set (tx := t) end.
      assert (forall a1, tx = Val a1 -> data a1 b = data a b) as Ht.
      { intros a1. unfold tx. destruct (find _ ch) as [c|]; [|by intros [= <-]].
        destruct (pc_value c); [|by intros [= <-]]. by apply same_set_text. }
      destruct tx as [a1| | |]; try done. specialize (Ht a1 eq_refl).
      destruct (data a1 n) as [[[] ns]|]; try done.
      destruct (b_set_changes _ _ _ _ _) as [l' ok]. unfold same. cbn.
      rewrite data_set_kind_other by congruence. done.
    - apply same_with; [done|done|]. intros n _. by destruct (node_kind a n) as [[]|].
  Qed.

  Lemma apply_all_same ps : forall a sl, framed a -> bsl Out b sl ->
    (forall p, p ∈ ps -> p <> PRemove [0] /\ edits_root p = false) ->
    same a (b_apply_all valid_elem valid_attr parse_template b (a, sl) ps).
  Proof.
    induction ps as [|p ps IH]; intros a sl Hf Hs Hp; cbn [b_apply_all]; [done|].
    destruct (Hp p ltac:(by left)) as [H1 H2].
    pose proof (bok_apply valid_elem valid_attr parse_template a0 Out b Out_lt b_in b_lt a sl p Hf Hs H1) as [F1 S1].
    pose proof (apply_same a sl p Hf Hs H2) as D1.
    destruct (bap b (a, sl) p) as [[a1 sl1] [[]|e| |]]; try done. unfold same in *. cbn [fst snd] in *.
    rewrite <- D1. apply IH; try done. intros q Hq. apply Hp. by right.
  Qed.
End Frame.

(** ** Patches of a comparison *)

Lemma fresh_path_root t s x : wf t -> (forall j, j < length t -> above t 0 j) -> fresh_shadow t s ->
  x < length t -> compute_path s x = Val [0] -> x = 0.
Proof.
  intros W A FS Hx E. destruct (decide (x = 0)) as [|Hx0]; [done|exfalso].
  unfold compute_path in E. destruct (chain_fuel (sh_arena s)) as [|f]; [done|]. cbn [path_loop] in E.
  rewrite (fs_parent _ _ FS) in E by done. destruct (parent t x) as [p|] eqn:Ep; [|done].
  pose proof (wf_parent_lt _ _ _ W Ep) as Hp.
  assert (exists g, parent (sh_arena s) p = Some g /\ g <> sh_super s) as (g & Eg & Hg).
  { rewrite (fs_super _ _ FS). destruct (decide (p = 0)) as [->|Hp0].
    - rewrite (fs_root_parent _ _ FS). eexists. split; [done|]. lia.
    - rewrite (fs_parent _ _ FS) by done. destruct (above_inv _ _ _ (A p Hp)) as [?|(g & Eg & _)]; [done|].
      exists g. split; [done|]. pose proof (wf_parent_lt _ _ _ W Eg). lia. }
  rewrite Eg in E. apply Nat.eqb_neq in Hg. rewrite Hg in E.
  assert (forall f cur acc q, path_loop f s cur acc = Val q -> length acc <= length q) as HL.
  { clear. intros f. induction f as [|f IH]; intros cur acc q; [done|]. cbn [path_loop].
    destruct (parent (sh_arena s) cur) as [p|]; [|by intros [= <-]].
    match goal with |- context [if ?c then _ else _] => destruct c end; [intros [= <-]; cbn; lia|].
    intros E. apply IH in E. cbn in E. lia. }
  destruct f as [|f]; [done|]. cbn [path_loop] in E. rewrite Eg in E.
  match type of E with context [if ?c then _ else _] => destruct c end; [done|].
  apply HL in E. cbn in E. lia.
Qed.

Section Spare.
  Context {H : Type}.
  Variables ta tb : dtree H hkind attrs string.
  Variable ins : list nat.
  Notation spares := (Forall (fun p => edits_root p = false)).

  Lemma reparent_spares l : forall par pos s s', reparent_loop l par pos s = Val s' -> spares (cs_out s) -> spares (cs_out s').
  Proof.
    induction l as [|[i c] l IH]; intros par pos s s' E Hs; [by injection E as <-|].
    cbn [reparent_loop] in E. bnd E from E1. bnd E sh1 E2. bnd E a2 E3. bnd E to E4.
    apply IH in E; [done|]. cbn. apply Forall_app. split; [done|]. by constructor.
  Qed.

  Lemma other_spares s op s' : convert_op tb ins s op = Val s' ->
    match op with UpdateProperties _ _ _ | SetText _ _ _ => False | _ => True end ->
    spares (cs_out s) -> spares (cs_out s').
  Proof.
    intros E Ho Hs. destruct op as [| b pb pos kind|x|x b pb pos|]; try done; cbn [convert_op] in E.
    - bnd E sp E1. destruct (new_node _ _) as [a1 n]. bnd E r E2. destruct r as [sh1 slot]. bnd E at_ E3. bnd E p E4.
      injection E as <-. cbn. apply Forall_app. split; [done|]. constructor; [|constructor].
      destruct kind; [bnd E4 cs E5|..]; by injection E4 as <-.
    - bnd E p E1. bnd E sh1 E2. injection E as <-. cbn. apply Forall_app. split; [done|]. by constructor.
    - bnd E sp E1. bnd E anc E2. bnd E s1 E3. bnd E from E4. bnd E r E5. destruct r as [sh2 slot]. bnd E to E6.
      injection E as <-. cbn. apply Forall_app. split; [|by constructor].
      destruct anc; [|by injection E3 as <-]. bnd E3 par E7. by apply reparent_spares in E3.
  Qed.

  Lemma others_spare ops : forall s s', convert_loop tb ins s ops = Val s' ->
    (forall op, op ∈ ops -> match op with UpdateProperties _ _ _ | SetText _ _ _ => False | _ => True end) ->
    spares (cs_out s) -> spares (cs_out s').
  Proof.
    induction ops as [|op ops IH]; intros s s' E Ho Hs; [by injection E as <-|].
    cbn [convert_loop] in E. bnd E s1 E1. eapply IH; [exact E| |].
    - intros op' Hop. apply Ho. by right.
    - eapply other_spares; [exact E1| |done]. apply Ho. left.
  Qed.

  Variables (t : arena tdata) (sh : shadow).
  Hypothesis WT : wf t.
  Hypothesis AT : forall j, j < length t -> above t 0 j.
  Hypothesis FS : fresh_shadow t sh.

  Lemma updates_spare ops : forall s s', convert_loop tb ins s ops = Val s' -> cs_shadow s = sh ->
    (forall op, op ∈ ops -> exists x y, x < length t /\ x <> 0 /\
       ((exists c, op = UpdateProperties x y c) \/ exists c, op = SetText x y c)) ->
    spares (cs_out s) -> spares (cs_out s').
  Proof.
    induction ops as [|op ops IH]; intros s s' E Hsh Ho Hs; [by injection E as <-|].
    cbn [convert_loop] in E. bnd E s1 E1.
    destruct (Ho op ltac:(left)) as (x & y & Hx & Hx0 & Hop).
    assert (cs_shadow s1 = sh /\ spares (cs_out s1)) as [H1 H2].
    { destruct Hop as [[c ->]|[c ->]]; cbn [convert_op] in E1; rewrite Hsh in E1; bnd E1 p E2; injection E1 as <-; cbn;
        (split; [done|]); apply Forall_app; (split; [done|]); (constructor; [|constructor]);
        assert (p <> [0]) as Hp by (intros ->; by apply Hx0, (fresh_path_root t sh x)); destruct p as [|[|?] [|]]; done. }
    eapply IH; [exact E|done| |done]. intros op' Hop'. apply Ho. by right.
  Qed.
End Spare.

Lemma opaque_spares sh l : forall ps, opaque_patches sh l = Val ps -> Forall (fun p => edits_root p = false) ps.
Proof.
  induction l as [|[x s] l IH]; intros ps E; [by injection E as <-|].
  cbn [opaque_patches] in E. bnd E p E1. bnd E qs E2. injection E as <-. constructor; [done|by apply IH].
Qed.

Lemma insert_all_spares a l : forall pos ps, insert_all a l pos = Val ps -> Forall (fun p => edits_root p = false) ps.
Proof.
  induction l as [|c l IH]; intros pos ps E; [by injection E as <-|].
  cbn [insert_all] in E. bnd E p E1. bnd E qs E2. injection E as <-. constructor; [|by eapply IH].
  unfold create_insert_patch in E1. destruct (node_kind a c) as [[]|]; try done; try (by injection E1 as <-).
  bnd E1 cs E3. destruct cs as [|[] []]; try done. by injection E1 as <-.
Qed.

Lemma diff_spares_root {H} (heqb : H -> H -> bool) hcomb h0 old new ob nb oats ts us t ta tb m ps :
  mild_doc old ob oats ts -> mild_doc new nb [] us ->
  compared heqb hcomb h0 old new t ta tb m -> no_collision heqb ta tb ->
  diff heqb hcomb h0 old new = Val ps -> forall p, p ∈ ps -> edits_root p = false.
Proof.
  intros PO PN CM NC E. apply Forall_forall.
  destruct CM as (ob' & nb' & Eo & En & Et & Ea & Eb & Em).
  pose proof (md_body _ _ _ _ PO). pose proof (md_body _ _ _ _ PN).
  assert (ob' = ob) as -> by congruence. assert (nb' = nb) as -> by congruence.
  destruct (as_matching heqb hcomb h0 (doc_arena old) (doc_arena new) ob nb ts us "body" NsHtml oats []
    (md_wf _ _ _ _ PO) (md_wf _ _ _ _ PN) (md_data _ _ _ _ PO) (md_data _ _ _ _ PN)
    (md_holds _ _ _ _ PO) (md_holds _ _ _ _ PN) (md_sound _ _ _ _ PO) (md_sound _ _ _ _ PN)
    (md_hollow _ _ _ _ PO) (md_hollow _ _ _ _ PN) (md_keys _ _ _ _ PN) (md_opaque _ _ _ _ PN)
    t ta tb m Et Ea Eb Em NC) as (BJ & MR & MI).
  destruct (build_tree_ok _ _ _ _ (md_wf _ _ _ _ PO) (md_data _ _ _ _ PO) (md_holds _ _ _ _ PO)) as (t' & Et' & BT).
  rewrite Et in Et'. injection Et' as <-.
  pose proof (bt_wf _ _ _ BT) as WT. assert (0 < length t) as L0 by (eapply data_lt; apply BT).
  destruct (shadow_new_full t WT L0 (bt_root_parent _ _ _ BT)) as (sh & Esh & FS).
  unfold diff in E. rewrite Eo, En in E. unfold diff_bodies in E. rewrite Et in E. cbn [obind] in E.
  rewrite Ea in E. cbn [obind] in E. rewrite Eb in E. cbn [obind] in E. rewrite Em in E. cbn [obind] in E.
  bnd E oc Eoc. bnd E qs Ec. rewrite Esh in E. cbn [obind] in E.
  assert (Forall (fun p => edits_root p = false) qs) as HQ.
  { unfold convert_ops in Ec. rewrite Esh in Ec. cbn [obind] in Ec. bnd Ec s Es. injection Ec as <-.
    unfold html_edit_script, generate_edit_script, edit_script_with in Es.
    rewrite RestyleProofs.convert_loop_app in Es. bnd Es s1 Es1.
    eapply others_spare; [exact Es| |].
    - intros op Hop. rewrite !elem_of_app in Hop. destruct Hop as [Hop|[Hop|Hop]];
        apply elem_of_list_In, in_flat_map in Hop as (z & _ & Hop); apply elem_of_list_In in Hop.
      + unfold phase2 in Hop. destruct (contains_b m z); [by apply elem_of_nil in Hop|].
        destruct (t_parent tb z); [|by apply elem_of_nil in Hop]. destruct (mem z _); [by apply elem_of_nil in Hop|].
        by apply elem_of_list_singleton in Hop as ->.
      + destruct z as [x y]. unfold phase4 in Hop. destruct (_ || _); [by apply elem_of_nil in Hop|].
        destruct (t_parent ta x), (t_parent tb y); try (by apply elem_of_nil in Hop).
        repeat match type of Hop with context [if ?c then _ else _] => destruct c end;
          first [by apply elem_of_nil in Hop|by apply elem_of_list_singleton in Hop as ->].
      + unfold phase5 in Hop. destruct (contains_a m z); [by apply elem_of_nil in Hop|].
        destruct (mem z _); [by apply elem_of_nil in Hop|]. by apply elem_of_list_singleton in Hop as ->.
    - eapply (updates_spare tb _ t sh WT (bt_all _ _ _ BT) FS); [exact Es1|done| |constructor].
      intros op Hop. apply elem_of_list_In, in_flat_map in Hop as ([x y] & Hin & Hop).
      apply elem_of_list_In in Hin, Hop. apply (bij_fwd _ BJ) in Hin. destruct (MI x y Hin) as (Hx & _ & _).
      exists x, y. split; [done|].
      destruct (mk_dtree_fields _ _ _ _ _ _ Ea) as (_ & _ & FP & FT & _).
      destruct (mk_dtree_fields _ _ _ _ _ _ Eb) as (_ & _ & GP & GT & _).
      assert (x = 0 -> t_text ta x = None /\ t_props ta x = [] /\ t_text tb y = None /\ t_props tb y = []) as HZ.
      { intros ->. assert (y = nb) as -> by congruence. rewrite FP, FT, GP, GT. unfold dtext, dprops.
        by rewrite (bt_root _ _ _ BT), (md_data _ _ _ _ PN). }
      unfold phase1 in Hop. destruct (_ || _); [by apply elem_of_nil in Hop|]. apply elem_of_app in Hop as [Hop|Hop].
      + destruct (decide (x = 0)) as [Hx0|Hx0].
        { destruct (HZ Hx0) as (Z1 & _ & Z2 & _). rewrite Z1, Z2 in Hop. cbn in Hop. by apply elem_of_nil in Hop. }
        split; [done|]. right. destruct (otext_eqb _ _ _); [by apply elem_of_nil in Hop|].
        destruct (t_text tb y) as [s0|]; [|by apply elem_of_nil in Hop]. apply elem_of_list_singleton in Hop as ->. by eexists.
      + destruct (decide (x = 0)) as [Hx0|Hx0].
        { destruct (HZ Hx0) as (_ & Z1 & _ & Z2). rewrite Z1, Z2 in Hop. cbn in Hop. by apply elem_of_nil in Hop. }
        split; [done|]. left. destruct (_ && _); [by apply elem_of_nil in Hop|].
        destruct (_ || _); [|by apply elem_of_nil in Hop]. apply elem_of_list_singleton in Hop as ->. by eexists. }
  destruct oc as [|pr oc]; [by injection E as <-|]. bnd E os Eos. injection E as <-. apply Forall_app. split; [done|].
  by eapply opaque_spares.
Qed.
