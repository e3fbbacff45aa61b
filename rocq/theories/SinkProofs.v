(** Lemmas on the tree sink. *)
From Verif Require Import Base Arena Matching Dom HtmlDiff Server Sink ArenaProofs ArenaOps ServerProofs FrameProofs AttrProofs.
Local Open Scope string_scope.

(** Is node [i] a text node? *)
Definition text_at (a : arena dnode) (i : nat) : bool :=
  match node_kind a i with Some (NText _) => true | _ => false end.

(** No two neighbouring children are both text nodes. *)
Definition no_adjacent_text (a : arena dnode) : Prop :=
  forall p k x y, children a p !! k = Some x -> children a p !! S k = Some y ->
    ~ (text_at a x = true /\ text_at a y = true).

Fixpoint noadj (f : nat -> bool) (l : list nat) : bool :=
  match l with
  | x :: ((y :: _) as l') => negb (f x && f y) && noadj f l'
  | _ => true
  end.

Lemma noadj_spec f l : noadj f l = true <->
  forall k x y, l !! k = Some x -> l !! S k = Some y -> ~ (f x = true /\ f y = true).
Proof.
  induction l as [|a l IH]; [split; [by intros _ [|k]|done]|].
  destruct l as [|b l].
  - split; [|done]. intros _ [|k] x y; cbn; [done|by destruct k].
  - cbn [noadj]. rewrite andb_true_iff, IH. split.
    + intros [H1 H2] [|k] x y.
      * cbn. intros [= <-] [= <-] [E1 E2]. rewrite E1, E2 in H1. done.
      * apply H2.
    + intros H. split.
      * destruct (f a) eqn:E1, (f b) eqn:E2; try done. exfalso. by apply (H 0 a b).
      * intros k x y. apply (H (S k)).
Qed.

Lemma no_adjacent_alt a : no_adjacent_text a <-> forall p, noadj (text_at a) (children a p) = true.
Proof.
  split; intros H p.
  - apply noadj_spec. apply H.
  - intros k x y. specialize (H p). rewrite noadj_spec in H. apply H.
Qed.

Lemma noadj_ext f g l : (forall x, x ∈ l -> f x = g x) -> noadj f l = noadj g l.
Proof.
  induction l as [|a l IH]; [done|]. destruct l as [|b l]; [done|]. intros H.
  change (negb (f a && f b) && noadj f (b :: l) = negb (g a && g b) && noadj g (b :: l)).
  rewrite IH by (intros x Hx; apply H; by right).
  rewrite (H a), (H b) by (rewrite !elem_of_cons; auto). done.
Qed.

Lemma noadj_snoc f l c : noadj f l = true ->
  (match list.last l with Some x => f x && f c | None => false end) = false -> noadj f (l ++ [c]) = true.
Proof.
  induction l as [|a l IH]; [done|]. destruct l as [|b l].
  - cbn. intros _ ->. done.
  - cbn [noadj app]. rewrite andb_true_iff. intros [H1 H2] H3. rewrite H1. cbn [andb]. by apply IH.
Qed.

Lemma noadj_before f l s c : noadj f l = true -> f s && f c = false ->
  (match prev_in s l with Some x => f x && f c | None => false end) = false ->
  noadj f (insert_before_list s c l) = true.
Proof.
  intros H Hs. induction l as [|a l IH]; [done|]. cbn [insert_before_list].
  destruct (Nat.eqb_spec a s) as [->|Hne].
  - intros _. change (negb (f c && f s) && noadj f (s :: l) = true). rewrite H, andb_comm. cbn.
    destruct (f c), (f s); done.
  - destruct l as [|b l]; [done|]. cbn [prev_in]. change (negb (f a && f b) && noadj f (b :: l) = true) in H. apply andb_true_iff in H as [H1 H2].
    destruct (Nat.eqb_spec b s) as [->|Hne'].
    + intros Hc. cbn [insert_before_list]. rewrite Nat.eqb_refl.
      change (negb (f a && f c) && (negb (f c && f s) && noadj f (s :: l)) = true).
      rewrite H2, Hc. cbn. destruct (f c), (f s); done.
    + intros Hc. specialize (IH H2 Hc). cbn [insert_before_list] in IH |- *.
      destruct (Nat.eqb_spec b s); [done|].
      change (negb (f a && f b) && noadj f (b :: insert_before_list s c l) = true). by rewrite H1, IH.
Qed.

(** [n] may be linked below [p]: it exists, has no parent and is not above [p]. *)
Definition loose (a : arena dnode) (p n : nat) : Prop :=
  n < length a /\ parent a n = None /\ ~ above a n p.
Definition fits (a : arena dnode) (p : nat) (c : node_or_text) : Prop :=
  match c with AppendText _ => True | AppendNode n => loose a p n end.
Definition not_text (a : arena dnode) (c : node_or_text) : Prop :=
  match c with AppendText _ => True | AppendNode n => text_at a n = false end.

Lemma text_at_set_kind a l e s j : node_kind a l = Some (NText e) ->
  text_at (set_kind a l (NText s)) j = text_at a j.
Proof.
  intros H. unfold text_at, node_kind, set_kind in *. destruct (data a l) as [d|] eqn:E; [|done].
  destruct (decide (j = l)) as [->|Hne].
  - rewrite data_set_data, Nat.eqb_refl by (by eapply data_lt). cbn. rewrite E.
    injection H as ->. done.
  - by rewrite data_set_data_ne.
Qed.

Lemma children_set_kind a n k j : children (set_kind a n k) j = children a j.
Proof. unfold set_kind. destruct (data a n); [apply children_set_data|done]. Qed.
Lemma parent_set_kind a n k j : parent (set_kind a n k) j = parent a j.
Proof. unfold set_kind. destruct (data a n); [apply parent_set_data|done]. Qed.
Lemma len_set_kind a n k : length (set_kind a n k) = length a.
Proof. unfold set_kind. destruct (data a n); [apply length_set_data|done]. Qed.
Lemma set_kind_wf a n k : wf a -> wf (set_kind a n k).
Proof. intros W. unfold set_kind. destruct (data a n); [by apply wf_set_data|done]. Qed.

(** A fresh text node linked somewhere. *)
Lemma sink_append_ok a p c : wf a -> p < length a -> fits a p c ->
  exists a', sink_append a p c = Val a' /\ wf a' /\ length a <= length a' /\
    (no_adjacent_text a -> not_text a c -> no_adjacent_text a').
Proof.
  intros W Hp Hf. destruct c as [n|s]; cbn [sink_append].
  - destruct Hf as (Hn & Ho & Hab). destruct (append_full a p n W Hp Hn Ho Hab) as (a' & E & [W' L D C P]).
    exists a'. split_and!; [done..|lia|]. rewrite !no_adjacent_alt. intros H Ht q. cbn in Ht.
    rewrite (noadj_ext _ (text_at a)) by (intros x _; unfold text_at, node_kind; by rewrite D).
    rewrite C. destruct (Nat.eqb_spec q p) as [->|]; [|done]. apply noadj_snoc; [done|].
    rewrite Ht. destruct (list.last _); [apply andb_false_r|done].
  - assert (Hfresh : (match list.last (children a p) with Some l => text_at a l | None => false end) = false ->
      exists a', append (fst (new_node a (text_node s))) p (length a) = Val a' /\ wf a' /\ length a <= length a' /\
        (no_adjacent_text a -> no_adjacent_text a')).
    { intros Hl. destruct (new_node_full a (text_node s) W) as (W1 & L1 & P1 & C1 & D1 & Cj & Pj & Dj).
      destruct (append_full (fst (new_node a (text_node s))) p (length a) W1) as (a' & E & [W' L D C P]);
        [lia|lia|done|apply leaf_not_above; [done|done|lia]|].
      exists a'. split_and!; [done..|lia|]. rewrite !no_adjacent_alt. intros H q.
      rewrite C, !Cj. destruct (Nat.eqb_spec q p) as [->|].
      - apply noadj_snoc.
        + rewrite (noadj_ext _ (text_at a)); [done|]. intros x Hx. unfold text_at, node_kind. rewrite D, Dj; [done|].
          pose proof (wf_child_lt _ _ _ W Hx). lia.
        + destruct (list.last (children a p)) as [l|] eqn:El; [|done].
          assert (text_at a' l = false) as ->; [|done]. rewrite <- Hl. unfold text_at, node_kind. rewrite D, Dj; [done|].
          apply last_Some in El as [l' El]. assert (l ∈ children a p) as Hin.
          { rewrite El. apply elem_of_app. right. by left. }
          pose proof (wf_child_lt _ _ _ W Hin). lia.
      - rewrite (noadj_ext _ (text_at a)); [done|]. intros x Hx. unfold text_at, node_kind. rewrite D, Dj; [done|].
        pose proof (wf_child_lt _ _ _ W Hx). lia. }
    change (new_node a (text_node s)) with (fst (new_node a (text_node s)), length a). cbv beta iota zeta.
    destruct (list.last (children a p)) as [l|] eqn:El.
    + destruct (node_kind a l) as [k|] eqn:Ek.
      * destruct k as [| |e|]; try (destruct Hfresh as (a' & H1 & H2 & H3 & H4);
          [unfold text_at; by rewrite Ek|]; exists a'; by eauto).
        exists (set_kind a l (NText (e ++ s))). split_and!; [done|by apply set_kind_wf|by rewrite len_set_kind|].
        rewrite !no_adjacent_alt. intros H _ q. rewrite children_set_kind.
        rewrite (noadj_ext _ (text_at a)); [done|]. intros x _. by eapply text_at_set_kind.
      * destruct Hfresh as (a' & H1 & H2 & H3 & H4); [unfold text_at; by rewrite Ek|]. exists a'. by eauto.
    + destruct Hfresh as (a' & H1 & H2 & H3 & H4); [done|]. exists a'. by eauto.
Qed.

Lemma prev_in_elem s l x : prev_in s l = Some x -> x ∈ l.
Proof.
  induction l as [|a l IH]; [done|]. destruct l as [|b l]; [done|]. cbn [prev_in].
  destruct (Nat.eqb b s); [intros [= <-]; by left|]. intros H. right. by apply IH.
Qed.

Lemma sink_before_ok a sib q c : wf a -> parent a sib = Some q -> fits a q c ->
  exists a', sink_before a sib c = Val a' /\ wf a' /\ length a <= length a' /\
    (no_adjacent_text a -> text_at a sib = false -> not_text a c -> no_adjacent_text a').
Proof.
  intros W Hq Hf. pose proof (wf_parent_lt _ _ _ W Hq) as Hql.
  pose proof (parent_lt _ _ _ Hq) as Hsl. destruct c as [n|s]; cbn [sink_before].
  - destruct Hf as (Hn & Ho & Hab).
    destruct (insert_before_full a sib n q W Hn Ho Hq Hab) as (a' & E & [W' L D C P]).
    exists a'. split_and!; [done..|lia|]. rewrite !no_adjacent_alt. intros H Hs Ht p. cbn in Ht.
    rewrite (noadj_ext _ (text_at a)) by (intros x _; unfold text_at, node_kind; by rewrite D).
    rewrite C. destruct (Nat.eqb_spec p q) as [->|]; [|done]. apply noadj_before; [done|by rewrite Hs|].
    rewrite Ht. destruct (prev_in _ _); [apply andb_false_r|done].
  - assert (Hfresh : (match previous_sibling a sib with Some l => text_at a l | None => false end) = false ->
      exists a', insert_before (fst (new_node a (text_node s))) sib (length a) = Val a' /\ wf a' /\ length a <= length a' /\
        (no_adjacent_text a -> text_at a sib = false -> no_adjacent_text a')).
    { intros Hl. destruct (new_node_full a (text_node s) W) as (W1 & L1 & P1 & C1 & D1 & Cj & Pj & Dj).
      destruct (insert_before_full (fst (new_node a (text_node s))) sib (length a) q W1) as (a' & E & [W' L D C P]);
        [lia|done|by rewrite Pj|apply leaf_not_above; [done|done|lia]|].
      exists a'. split_and!; [done..|lia|]. rewrite !no_adjacent_alt. intros H Hs p.
      assert (Hta : forall x, x < length a -> text_at a' x = text_at a x).
      { intros x Hx. unfold text_at, node_kind. rewrite D, Dj; [done|lia]. }
      rewrite C, !Cj. destruct (Nat.eqb_spec p q) as [->|].
      - apply noadj_before.
        + rewrite (noadj_ext _ (text_at a)); [done|]. intros x Hx. apply Hta. by eapply wf_child_lt.
        + by rewrite Hta, Hs.
        + unfold previous_sibling in Hl. rewrite Hq in Hl. destruct (prev_in sib (children a q)) as [l|] eqn:El; [|done].
          rewrite Hta, Hl; [done|]. apply prev_in_elem in El. by eapply wf_child_lt.
      - rewrite (noadj_ext _ (text_at a)); [done|]. intros x Hx. apply Hta. by eapply wf_child_lt. }
    change (new_node a (text_node s)) with (fst (new_node a (text_node s)), length a). cbv beta iota zeta.
    destruct (previous_sibling a sib) as [l|] eqn:El.
    + destruct (node_kind a l) as [k|] eqn:Ek.
      * destruct k as [| |e|]; try (destruct Hfresh as (a' & H1 & H2 & H3 & H4);
          [unfold text_at; by rewrite Ek|]; exists a'; by eauto 6).
        exists (set_kind a l (NText (e ++ s))). split_and!; [done|by apply set_kind_wf|by rewrite len_set_kind|].
        rewrite !no_adjacent_alt. intros H _ _ p. rewrite children_set_kind.
        rewrite (noadj_ext _ (text_at a)); [done|]. intros x _. by eapply text_at_set_kind.
      * destruct Hfresh as (a' & H1 & H2 & H3 & H4); [unfold text_at; by rewrite Ek|]. exists a'. by eauto 6.
    + destruct Hfresh as (a' & H1 & H2 & H3 & H4); [done|]. exists a'. by eauto 6.
Qed.

(** ** Reparenting *)

Lemma above_agree_chain {D} (a a' : arena D) x p : wf a ->
  (forall y, above a y p -> parent a' y = parent a y) -> above a' x p -> above a x p.
Proof.
  intros W H (l & Hl & Hx). destruct (wf_chain a W p) as [k Hk].
  assert (Hk' : chain a' p k).
  { eapply chain_agree; [exact Hk|]. intros y Hy. apply H. exists k. destruct Hy as [->|Hy]; auto. }
  rewrite (chain_det _ _ _ _ Hl Hk') in Hx. by exists k.
Qed.

Lemma reparent_ok p n : p <> n -> forall cs (a : arena dnode), wf a -> p < length a ->
  children a n = cs -> (forall c, c ∈ cs -> ~ above a c p) ->
  exists a', fold_left (fun o c => let! a := o in append (detach a c) p c) cs (Val a) = Val a' /\
    wf a' /\ length a' = length a /\ (forall j, data a' j = data a j) /\
    children a' n = [] /\ children a' p = (children a p ++ cs)%list /\
    (forall j, j <> n -> j <> p -> children a' j = children a j).
Proof.
  intros Hpn cs. induction cs as [|c cs IH]; intros a W Hp Hcs Hab; cbn [fold_left].
  - exists a. split_and!; try done. by rewrite app_nil_r.
  - cbn [obind]. destruct (detach_full a c W) as [W1 L1 D1 C1 P1].
    assert (Hc : c ∈ children a n) by (rewrite Hcs; by left). apply (wf_pc a W) in Hc as Hpc.
    assert (Hnot : forall j, j <> n -> c ∉ children a j).
    { intros j Hj Hin. apply (wf_pc a W) in Hin. congruence. }
    assert (Hup : forall y, above a y p -> y <> c).
    { intros y Hy ->. apply (Hab c); [by left|done]. }
    destruct (append_full (detach a c) p c W1) as (a2 & E & [W2 L2 D2 C2 P2]).
    { by rewrite L1. }
    { rewrite L1. by eapply parent_lt. }
    { by rewrite P1, Nat.eqb_refl. }
    { intros Ha. apply (Hab c); [by left|]. revert Ha. apply above_agree_chain; [done|].
      intros y Hy. rewrite P1. destruct (Nat.eqb_spec y c); [|done]. by apply Hup in Hy. }
    rewrite E.
    assert (Hcp : children (detach a c) p = children a p).
    { rewrite C1. apply remove_id_notin. by apply Hnot. }
    assert (Hcn : children (detach a c) n = cs).
    { rewrite C1, Hcs. cbn. rewrite Nat.eqb_refl. apply remove_id_notin.
      pose proof (wf_nd a W n) as Hnd. rewrite Hcs in Hnd. by apply NoDup_cons in Hnd as [? _]. }
    destruct (IH a2 W2) as (a3 & E3 & W3 & L3 & D3 & N3 & P3 & O3).
    { by rewrite L2, L1. }
    { rewrite C2. destruct (Nat.eqb_spec n p); [congruence|done]. }
    { intros x Hx Ha. apply (Hab x); [by right|]. revert Ha. apply above_agree_chain; [done|].
      intros y Hy. rewrite P2, P1. destruct (Nat.eqb_spec y c); [by apply Hup in Hy|done]. }
    exists a3. rewrite E3. split_and!; try done.
    + by rewrite L3, L2, L1.
    + intros j. by rewrite D3, D2, D1.
    + rewrite P3, C2, Nat.eqb_refl, Hcp. by rewrite <- app_assoc.
    + intros j Hj1 Hj2. rewrite O3 by done. rewrite C2. destruct (Nat.eqb_spec j p); [done|].
      rewrite C1. apply remove_id_notin. by apply Hnot.
Qed.

(** ** Attributes *)

Lemma existsb_keys q l : existsb (fun e : attr => qname_eqb (fst e) q) l = true <-> q ∈ keys l.
Proof.
  induction l as [|[k v] l IH]; cbn; [split; [done|intros H; inversion H]|].
  rewrite orb_true_iff, IH, elem_of_cons, qname_eqb_eq. intuition congruence.
Qed.

Lemma add_missing_cons old kv new : add_missing old (kv :: new) =
  add_missing (if existsb (fun e => qname_eqb (fst e) (fst kv)) old then old else (old ++ [kv])%list) new.
Proof. done. Qed.

Lemma attr_get_app q l k : attr_get q (l ++ k)%list = match attr_get q l with Some v => Some v | None => attr_get q k end.
Proof. induction l as [|[x v] l IH]; cbn; [done|]. by destruct (qname_eqb x q). Qed.

Lemma add_missing_get q new : forall old,
  attr_get q (add_missing old new) = match attr_get q old with Some v => Some v | None => attr_get q new end.
Proof.
  induction new as [|[k v] new IH]; intros old; [cbn; by destruct (attr_get q old)|].
  rewrite add_missing_cons, IH. cbn [fst attr_get].
  destruct (existsb (fun e => qname_eqb (fst e) k) old) eqn:E.
  - destruct (attr_get q old) eqn:E2; [done|]. apply existsb_keys in E. apply attr_get_None in E2.
    destruct (qname_eqb k q) eqn:E3; [|done]. apply qname_eqb_eq in E3. congruence.
  - rewrite attr_get_app. destruct (attr_get q old); [done|]. cbn. by destruct (qname_eqb k q).
Qed.

Lemma add_missing_prefix new : forall old, exists extra, add_missing old new = (old ++ extra)%list.
Proof.
  induction new as [|kv new IH]; intros old; [exists []; by rewrite app_nil_r|].
  rewrite add_missing_cons. destruct (existsb (fun e => qname_eqb (fst e) (fst kv)) old); [apply IH|].
  destruct (IH (old ++ [kv])%list) as [x ->]. exists (kv :: x). by rewrite <- app_assoc.
Qed.

Lemma add_missing_nodup new : forall old, NoDup (keys old) -> NoDup (keys (add_missing old new)).
Proof.
  induction new as [|kv new IH]; intros old H; [done|].
  rewrite add_missing_cons. destruct (existsb (fun e => qname_eqb (fst e) (fst kv)) old) eqn:E; [by apply IH|].
  apply IH. unfold keys in *. rewrite map_app. apply NoDup_app. split; [done|]. split.
  - intros x Hx Hin. cbn in Hin. apply elem_of_list_singleton in Hin as ->.
    assert (existsb (fun e => qname_eqb (fst e) (fst kv)) old = true); [by apply existsb_keys|congruence].
  - apply NoDup_singleton.
Qed.

(** ** Text content *)

(** The text directly below [p], in order. *)
Definition own_text (a : arena dnode) (i : nat) : string :=
  match node_kind a i with Some (NText s) => s | _ => "" end.
Definition texts_of (a : arena dnode) (l : list nat) : string := String.concat "" (map (own_text a) l).
Definition direct_text (a : arena dnode) (p : nat) : string := texts_of a (children a p).

Lemma texts_cons a x l : texts_of a (x :: l) = own_text a x ++ texts_of a l.
Proof.
  unfold texts_of. cbn [map]. destruct l as [|y l]; cbn; [by rewrite str_app_nil_r|done].
Qed.
Lemma texts_app a l k : texts_of a (l ++ k)%list = texts_of a l ++ texts_of a k.
Proof.
  induction l as [|x l IH]; [done|]. change ((x :: l) ++ k)%list with (x :: (l ++ k)%list).
  rewrite !texts_cons, IH. by rewrite str_app_assoc.
Qed.
Lemma texts_ext a a' l : (forall x, x ∈ l -> own_text a' x = own_text a x) -> texts_of a' l = texts_of a l.
Proof.
  induction l as [|x l IH]; [done|]. intros H. rewrite !texts_cons, H by by left. f_equal. apply IH.
  intros y Hy. apply H. by right.
Qed.
Lemma own_text_set_kind a l s j : l < length a -> own_text (set_kind a l (NText s)) j = if Nat.eqb j l then s else own_text a j.
Proof.
  intros Hl. unfold own_text, node_kind, set_kind. destruct (data a l) as [d|] eqn:E.
  - rewrite data_set_data by done. by destruct (Nat.eqb j l).
  - exfalso. unfold data in E. destruct (lookup_lt_is_Some_2 a l Hl) as [x Hx]. by rewrite Hx in E.
Qed.

Lemma sink_append_text a p s : wf a -> p < length a ->
  exists a', sink_append a p (AppendText s) = Val a' /\
    direct_text a' p = direct_text a p ++ s /\
    (forall q, q <> p -> children a' q = children a q) /\
    (forall q, q <> p -> direct_text a' q = direct_text a q).
Proof.
  intros W Hp. cbn [sink_append].
  assert (Hfresh : exists a', append (fst (new_node a (text_node s))) p (length a) = Val a' /\
    direct_text a' p = direct_text a p ++ s /\ (forall q, q <> p -> children a' q = children a q) /\
    (forall q, q <> p -> direct_text a' q = direct_text a q)).
  { destruct (new_node_full a (text_node s) W) as (W1 & L1 & P1 & C1 & D1 & Cj & Pj & Dj).
    destruct (append_full (fst (new_node a (text_node s))) p (length a) W1) as (a' & E & [W' L D C P]);
      [lia|lia|done|apply leaf_not_above; [done|done|lia]|].
    assert (Ho : forall q x, x ∈ children a q -> own_text a' x = own_text a x).
    { intros q x Hx. unfold own_text, node_kind. rewrite D, Dj; [done|]. pose proof (wf_child_lt _ _ _ W Hx). lia. }
    exists a'. split; [done|]. split; [|split].
    - unfold direct_text. rewrite C, Nat.eqb_refl, Cj, texts_app. rewrite (texts_ext a) by apply Ho.
      f_equal. unfold texts_of. cbn. unfold own_text, node_kind. by rewrite D, D1.
    - intros q Hq. rewrite C. destruct (Nat.eqb_spec q p); [done|]. apply Cj.
    - intros q Hq. unfold direct_text. rewrite C. destruct (Nat.eqb_spec q p); [done|]. rewrite Cj. apply texts_ext, Ho. }
  change (new_node a (text_node s)) with (fst (new_node a (text_node s)), length a). cbv beta iota zeta.
  destruct (list.last (children a p)) as [l|] eqn:El; [|done].
  destruct (node_kind a l) as [[| |e|]|] eqn:Ek; try done. clear Hfresh.
  apply last_Some in El as [l' El]. assert (Hin : l ∈ children a p).
  { rewrite El. apply elem_of_app. right. by left. }
  pose proof (wf_child_lt _ _ _ W Hin) as Hl. pose proof (wf_nd a W p) as Hnd. rewrite El in Hnd.
  apply NoDup_app in Hnd as (_ & Hnd & _).
  eexists. split; [done|]. split; [|split].
  - unfold direct_text. rewrite children_set_kind, El, !texts_app, str_app_assoc. f_equal.
    + apply texts_ext. intros x Hx. rewrite own_text_set_kind by done. destruct (Nat.eqb_spec x l) as [->|]; [|done].
      exfalso. apply (Hnd l Hx). by left.
    + unfold texts_of. cbn. rewrite own_text_set_kind, Nat.eqb_refl by done. unfold own_text. by rewrite Ek.
  - intros q _. apply children_set_kind.
  - intros q Hq. unfold direct_text. rewrite children_set_kind. apply texts_ext. intros x Hx.
    rewrite own_text_set_kind by done. destruct (Nat.eqb_spec x l) as [->|]; [|done].
    apply (wf_pc a W) in Hx, Hin. congruence.
Qed.

(** ** Input preparation *)

Lemma ws_lower c : is_ascii_ws (lower_char c) = is_ascii_ws c.
Proof. destruct c as [[|] [|] [|] [|] [|] [|] [|] [|]]; vm_compute; reflexivity. Qed.
Lemma lower_idem_char c : lower_char (lower_char c) = lower_char c.
Proof. destruct c as [[|] [|] [|] [|] [|] [|] [|] [|]]; vm_compute; reflexivity. Qed.
Lemma lower_idem s : to_ascii_lowercase (to_ascii_lowercase s) = to_ascii_lowercase s.
Proof. induction s; cbn; [done|]. by rewrite lower_idem_char, IHs. Qed.

Lemma skip_ws_lower s : skip_ws (to_ascii_lowercase s) = to_ascii_lowercase (skip_ws s).
Proof.
  induction s as [|c s IH]; [done|]. cbn. rewrite ws_lower. by destruct (is_ascii_ws c).
Qed.

Lemma doctype_lower s : has_doctype_prefix (to_ascii_lowercase s) = has_doctype_prefix s.
Proof. unfold has_doctype_prefix. by rewrite skip_ws_lower, lower_length, lower_take, lower_idem. Qed.
Lemma structure_lower s : has_html_structure (to_ascii_lowercase s) = has_html_structure s.
Proof. unfold has_html_structure. by rewrite lower_idem. Qed.

Lemma skip_ws_spec s : exists w, s = w ++ skip_ws s /\ (forall c u v, w = u ++ String c v -> is_ascii_ws c = true) /\
  match skip_ws s with EmptyString => True | String c _ => is_ascii_ws c = false end.
Proof.
  induction s as [|c s (w & E & Hw & Hs)]; [exists ""; split_and!; [done| |done]; intros ? [|] ?; done|].
  cbn. destruct (is_ascii_ws c) eqn:Ec.
  - exists (String c w). split_and!; [cbn; by f_equal| |done].
    intros x [|y u] v; cbn; [by intros [= <- _]|]. intros [= _ H]. by eapply Hw.
  - exists "". split_and!; [done| |done]. intros ? [|] ?; done.
Qed.
