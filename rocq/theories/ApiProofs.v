(** Lemmas on the DOM manipulation API; used for C47. *)
From Verif Require Import Base Arena Links Matching Dom DomApi ArenaProofs ArenaOps AttrProofs DomTree ApplyProofs FrameProofs
  SinkProofs LinkProofs ConvTotal DiffTotal ParseProofs.

Lemma remove_id_filter i l : remove_id i l = List.filter (fun x => negb (Nat.eqb x i)) l.
Proof. induction l as [|x l IH]; [done|]. cbn. destruct (Nat.eqb x i); cbn; by rewrite IH. Qed.

(** [a'] is [a] with [c] taken from where it was and put under [p], whose
    children become [cs]. *)
Record relinked (a a' : arena dnode) (p c : nat) (cs : list nat) : Prop := {
  rl_wf : wf a';
  rl_len : length a' = length a;
  rl_data : forall j, data a' j = data a j;
  rl_children : forall j, children a' j = if Nat.eqb j p then cs else remove_id c (children a j);
  rl_parent : forall j, parent a' j = if Nat.eqb j c then Some p else parent a j
}.

Lemma relinked_attach a p c cs : wf a -> p < length a -> c < length a -> wf (attach (detach a c) p c cs) ->
  relinked a (attach (detach a c) p c cs) p c cs.
Proof.
  intros W Hp Hc W'. split.
  - done.
  - by rewrite length_attach, length_detach.
  - intros j. by rewrite data_attach, data_detach.
  - intros j. rewrite children_attach by (by rewrite length_detach). by rewrite children_detach.
  - intros j. rewrite parent_attach by (by rewrite length_detach). rewrite parent_detach. by destruct (Nat.eqb j c).
Qed.

Lemma append_cases a p c : wf a -> p < length a -> c < length a ->
  (above a c p /\ append a p c = Panic) \/
  (~ above a c p /\ exists a', append a p c = Val a' /\ relinked a a' p c (remove_id c (children a p) ++ [c])).
Proof.
  intros W Hp Hc. destruct (above_dec a c p W) as [Ha|Ha]; [left|right]; split; try done.
  - unfold append. destruct (Nat.eqb_spec p c); [done|]. destruct (wf_chain a W p) as [l Hl].
    rewrite (is_ancestor_spec a c p l W Hl). assert (c ∈ l) as Hin.
    { destruct Ha as (l' & Hl' & [->|Hin]); [done|]. by rewrite (chain_det _ _ _ _ Hl Hl'). }
    assert (existsb (Nat.eqb c) l = true) as ->; [|done]. apply existsb_exists. exists c.
    split; [by apply elem_of_list_In|apply Nat.eqb_refl].
  - destruct (wf_chain a W p) as [l Hl]. destruct (not_above_chain _ _ _ _ Ha Hl) as [Hne Hnl].
    pose proof (append_spec a p c l W Hl Hne Hnl) as E. eexists. split; [exact E|].
    apply relinked_attach; try done. by eapply (append_wf a p c l).
Qed.

Lemma insert_before_cases a s n q : wf a -> n < length a -> parent a s = Some q -> n = q \/ ~ above a n q ->
  ((s = n \/ n = q) /\ insert_before a s n = Panic) \/
  (s <> n /\ n <> q /\ exists a' l1 l2, insert_before a s n = Val a' /\ remove_id n (children a q) = l1 ++ s :: l2 /\ s ∉ l1 /\
                relinked a a' q n (l1 ++ n :: s :: l2)).
Proof.
  intros W Hn Hq Ha. destruct (decide (s = n)) as [->|Hsn].
  { left. split; [by left|]. unfold insert_before. by rewrite Nat.eqb_refl. }
  destruct (decide (n = q)) as [->|Hnq].
  { left. split; [by right|]. unfold insert_before. destruct (Nat.eqb_spec s q); [done|]. rewrite parent_detach.
    destruct (Nat.eqb_spec s q); [done|]. by rewrite Hq, Nat.eqb_refl. }
  right. split; [done|]. split; [done|]. destruct Ha as [|Ha]; [done|].
  destruct (sibling_split a s n q W Hq Hsn) as (l1 & l2 & Ec & H1 & H2 & _).
  rewrite children_detach in Ec by done.
  pose proof (insert_before_spec a s n q W Hsn Hnq Hq) as E. rewrite Ec, insert_before_mid in E by done.
  eexists _, l1, l2. split; [exact E|]. split; [done|]. split; [done|].
  destruct (wf_chain a W q) as [l Hl]. destruct (not_above_chain _ _ _ _ Ha Hl) as [_ Hnl].
  apply relinked_attach; try done; [by eapply wf_parent_lt|].
  by eapply (insert_before_wf a s n q l).
Qed.

Lemma insert_after_cases a s n q : wf a -> n < length a -> parent a s = Some q -> n = q \/ ~ above a n q ->
  ((s = n \/ n = q) /\ insert_after a s n = Panic) \/
  (s <> n /\ n <> q /\ exists a' l1 l2, insert_after a s n = Val a' /\ remove_id n (children a q) = l1 ++ s :: l2 /\ s ∉ l1 /\
                relinked a a' q n (l1 ++ s :: n :: l2)).
Proof.
  intros W Hn Hq Ha. destruct (decide (s = n)) as [->|Hsn].
  { left. split; [by left|]. unfold insert_after. by rewrite Nat.eqb_refl. }
  destruct (decide (n = q)) as [->|Hnq].
  { left. split; [by right|]. unfold insert_after. destruct (Nat.eqb_spec s q); [done|]. rewrite parent_detach.
    destruct (Nat.eqb_spec s q); [done|]. by rewrite Hq, Nat.eqb_refl. }
  right. split; [done|]. split; [done|]. destruct Ha as [|Ha]; [done|].
  destruct (sibling_split a s n q W Hq Hsn) as (l1 & l2 & Ec & H1 & H2 & _).
  rewrite children_detach in Ec by done.
  pose proof (insert_after_spec a s n q W Hsn Hnq Hq) as E. rewrite Ec, insert_after_mid in E by done.
  eexists _, l1, l2. split; [exact E|]. split; [done|]. split; [done|].
  apply relinked_attach; try done; [by eapply wf_parent_lt|].
  by eapply (insert_after_wf a s n q).
Qed.

(** ** What the API keeps *)
Record sound (a : arena dnode) : Prop := {
  sd_wf : wf a;
  sd_leaf : forall i s, node_kind a i = Some (NText s) \/ node_kind a i = Some (NComment s) -> children a i = [];
  sd_docs : forall i p, parent a i = Some p -> node_kind a i <> Some NDocument;
  sd_attrs : forall i tag ns l, data a i = Some (mkD (NElem tag l) ns) -> NoDup (map fst l)
}.

(** A call that keeps the contract: only elements and documents get children,
    the document node stays unattached, a sibling has a parent, no node is
    inserted below an own descendant (except beside its own child: panic). *)
Definition api_ok (a : arena dnode) (c : api_call) : Prop :=
  match c with
  | AppendChild p c => container a p /\ node_kind a c <> Some NDocument
  | InsertBefore s n | InsertAfter s n =>
      node_kind a n <> Some NDocument /\ exists q, parent a s = Some q /\ (n = q \/ ~ above a n q)
  | _ => True
  end.

Lemma kind_of_data a a' i : data a' i = data a i -> node_kind a' i = node_kind a i.
Proof. unfold node_kind. by intros ->. Qed.

Lemma sound_relinked a a' p c cs : sound a -> relinked a a' p c cs -> container a p -> node_kind a c <> Some NDocument ->
  sound a'.
Proof.
  intros S R Hc Hd. split.
  - apply R.
  - intros i s. rewrite (kind_of_data a a') by apply R. intros Hi. rewrite (rl_children _ _ _ _ _ R).
    destruct (Nat.eqb_spec i p) as [->|]; [by destruct (container_not_leaf a p s)|].
    by rewrite (sd_leaf a S i s Hi).
  - intros i q. rewrite (kind_of_data a a') by apply R. rewrite (rl_parent _ _ _ _ _ R).
    destruct (Nat.eqb_spec i c) as [->|]; [done|]. apply S.
  - intros i tag ns l. rewrite (rl_data _ _ _ _ _ R). apply S.
Qed.

Lemma sound_new a d : sound a -> (forall t l, d_kind d = NElem t l -> NoDup (map fst l)) -> sound (fst (new_node a d)).
Proof.
  intros S Ha. destruct (new_node_full a d (sd_wf a S)) as (W & L & Pn & Cn & Dn & Cj & Pj & Dj).
  set (a' := fst (new_node a d)) in *.
  split; [done| | |].
  - intros i s. destruct (decide (i = length a)) as [->|Hne]; [done|]. rewrite (kind_of_data a a'), Cj by auto. apply S.
  - intros i p. rewrite Pj. intros Hp. rewrite (kind_of_data a a'); [by eapply S|]. apply Dj.
    intros ->. rewrite parent_ge in Hp by done. done.
  - intros i tag ns l Hi. destruct (decide (i = length a)) as [->|Hne].
    + rewrite Dn in Hi. injection Hi as ->. by eapply Ha.
    + rewrite Dj in Hi by done. by eapply S.
Qed.

Lemma sound_detach a n : sound a -> sound (detach a n).
Proof.
  intros S. split.
  - apply wf_detach, S.
  - intros i s. rewrite (kind_of_data a) by apply data_detach. intros Hi.
    rewrite children_detach by apply S. by rewrite (sd_leaf a S i s Hi).
  - intros i p. rewrite (kind_of_data a) by apply data_detach. rewrite parent_detach.
    destruct (Nat.eqb i n); [done|]. apply S.
  - intros i tag ns l. rewrite data_detach. apply S.
Qed.

Lemma kind_set_kind a n k j : node_kind a n <> None ->
  node_kind (set_kind a n k) j = if Nat.eqb j n then Some k else node_kind a j.
Proof.
  intros H. destruct (node_kind a n) as [k0|] eqn:E; [|done]. apply node_kind_data in E as (d & Ed & _).
  unfold node_kind. rewrite (set_kind_data a n d) by done. by destruct (Nat.eqb j n).
Qed.

Lemma sound_set_kind a n k0 k : sound a -> node_kind a n = Some k0 ->
  match k0, k with
  | NText _, NText _ => True
  | NElem _ l, NElem _ l' => NoDup (map fst l) -> NoDup (map fst l')
  | _, _ => False
  end -> sound (set_kind a n k).
Proof.
  intros S E Hk. pose proof E as E'. apply node_kind_data in E' as (d & Ed & Ek).
  assert (K : forall j, node_kind (set_kind a n k) j = if Nat.eqb j n then Some k else node_kind a j).
  { intros j. apply kind_set_kind. by rewrite E. }
  split.
  - apply set_kind_wf, S.
  - intros i s. rewrite K, children_set_kind. destruct (Nat.eqb_spec i n) as [->|]; [|apply S].
    intros Hs. destruct k0 as [|t l|e|e], k; try done.
    + by destruct Hs.
    + apply (sd_leaf a S n e). auto.
  - intros i p. rewrite K, parent_set_kind. intros Hp. destruct (Nat.eqb_spec i n) as [->|]; [|by eapply S].
    intros [= ->]. by destruct k0.
  - intros i tag ns l. rewrite (set_kind_data a n d) by done. destruct (Nat.eqb_spec i n) as [->|]; [|apply S].
    intros [= -> <-]. destruct k0 as [|t l0|e|e]; try done. apply Hk.
    destruct d as [kk nn]. cbn in Ek. subst kk. by eapply S.
Qed.

Lemma attr_remove_nodup q l : NoDup (map fst l) -> NoDup (map fst (attr_remove q l)).
Proof.
  unfold attr_remove. induction l as [|[k v] l IH]; [done|]. cbn. intros H. apply NoDup_cons in H as [H1 H2].
  destruct (qname_eqb k q); cbn; [by apply IH|]. apply NoDup_cons. split; [|by apply IH].
  intros Hin. apply H1. apply elem_of_list_fmap in Hin as (x & -> & Hx). apply elem_of_list_fmap. exists x. split; [done|].
  apply elem_of_list_In in Hx. apply filter_In in Hx as [Hx _]. by apply elem_of_list_In.
Qed.

Lemma api_step_sound a c : sound a -> api_ok a c ->
  match api_step a c with Val a' => sound a' | Panic => True | _ => False end.
Proof.
  intros S Hc. pose proof (sd_wf a S) as W. destruct c as [t|s|s|p c|s n|s n|n|e q v|e q|n s]; cbn [api_step].
  - apply sound_new; [done|]. intros t' l [= <- <-]. apply NoDup_nil_2.
  - apply sound_new; [done|]. done.
  - apply sound_new; [done|]. done.
  - destruct (exists_node a p) eqn:Ep; [|done]. destruct (exists_node a c) eqn:Ec; [|done]. cbn [andb].
    apply Nat.ltb_lt in Ep, Ec. destruct Hc as [Hp Hd].
    destruct (append_cases a p c W Ep Ec) as [[_ ->]|(_ & a' & -> & R)]; [done|]. by eapply sound_relinked.
  - destruct (exists_node a s) eqn:Es; [|done]. destruct (exists_node a n) eqn:En; [|done]. cbn [andb].
    apply Nat.ltb_lt in Es, En. destruct Hc as (Hd & q & Hq & Ha).
    destruct (insert_before_cases a s n q W En Hq Ha) as [[_ ->]|(_ & _ & a' & l1 & l2 & -> & _ & _ & R)]; [done|].
    eapply sound_relinked; [done..| |done]. assert (s ∈ children a q) as Hin by (by apply W).
    unfold container. destruct (node_kind a q) as [[|t l|x|x]|] eqn:E; try done.
    + rewrite (sd_leaf a S q x) in Hin by auto. inversion Hin.
    + rewrite (sd_leaf a S q x) in Hin by auto. inversion Hin.
    + unfold node_kind in E. destruct (data a q) eqn:Ed; [done|].
      destruct (data_some a q) as [? ?]; [by eapply wf_parent_lt|congruence].
  - destruct (exists_node a s) eqn:Es; [|done]. destruct (exists_node a n) eqn:En; [|done]. cbn [andb].
    apply Nat.ltb_lt in Es, En. destruct Hc as (Hd & q & Hq & Ha).
    destruct (insert_after_cases a s n q W En Hq Ha) as [[_ ->]|(_ & _ & a' & l1 & l2 & -> & _ & _ & R)]; [done|].
    eapply sound_relinked; [done..| |done]. assert (s ∈ children a q) as Hin by (by apply W).
    unfold container. destruct (node_kind a q) as [[|t l|x|x]|] eqn:E; try done.
    + rewrite (sd_leaf a S q x) in Hin by auto. inversion Hin.
    + rewrite (sd_leaf a S q x) in Hin by auto. inversion Hin.
    + unfold node_kind in E. destruct (data a q) eqn:Ed; [done|].
      destruct (data_some a q) as [? ?]; [by eapply wf_parent_lt|congruence].
  - destruct (exists_node a n); [|done]. by apply sound_detach.
  - destruct (node_kind a e) as [[|t l|x|x]|] eqn:E; try done. eapply sound_set_kind; [done..|]. cbn. apply attr_set_nodup.
  - destruct (node_kind a e) as [[|t l|x|x]|] eqn:E; try done. eapply sound_set_kind; [done..|]. cbn. apply attr_remove_nodup.
  - destruct (node_kind a n) as [[|t l|x|x]|] eqn:E; try done. by eapply sound_set_kind.
Qed.

Fixpoint api_safe (a : arena dnode) (cs : list api_call) : Prop :=
  match cs with
  | [] => True
  | c :: cs => api_ok a c /\ match api_step a c with Val a' => api_safe a' cs | _ => True end
  end.

Lemma api_run_sound cs a : sound a -> api_safe a cs ->
  match api_run a cs with Val a' => sound a' | Panic => True | _ => False end.
Proof.
  revert a. induction cs as [|c cs IH]; intros a S Hs; [done|]. destruct Hs as [Hc Hs]. cbn [api_run].
  pose proof (api_step_sound a c S Hc) as St. destruct (api_step a c) as [a1|e| |]; cbn [obind]; try done.
  by apply IH.
Qed.

Lemma sound_proper a r t : sound a -> proper (mkDoc a r t).
Proof. intros S. split; cbn; apply S. Qed.

(** ** Building a tree with calls *)
Fixpoint hsize (t : htree) : nat :=
  match t with
  | HElem _ _ _ cs => S ((fix go (l : list htree) : nat := match l with [] => 0 | c :: l => hsize c + go l end) cs)
  | _ => 1
  end.
Definition hsizes (l : list htree) : nat := fold_right (fun c m => hsize c + m) 0 l.
Lemma hsize_elem t ns ats cs : hsize (HElem t ns ats cs) = S (hsizes cs).
Proof. reflexivity. Qed.

Section Calls.
  Variable f : nat -> htree -> list api_call.
  Fixpoint under_f (p m : nat) (l : list htree) : list api_call :=
    match l with
    | [] => []
    | c :: l => f m c ++ AppendChild p m :: under_f p (m + hsize c) l
    end%list.
End Calls.
(** The calls that create [t] with the fresh ids from [n] on. *)
Fixpoint calls_for (n : nat) (t : htree) {struct t} : list api_call :=
  match t with
  | HText s => [CreateText s]
  | HComment s => [CreateComment s]
  | HElem tag _ ats cs =>
      CreateElement tag :: map (fun kv => SetAttr n (fst kv) (snd kv)) ats ++
      (fix under (m : nat) (l : list htree) : list api_call :=
         match l with
         | [] => []
         | c :: l => calls_for m c ++ AppendChild n m :: under (m + hsize c) l
         end) (S n) cs
  end%list.
(** The calls that append [l] to the children of [p]. *)
Definition calls_under : nat -> nat -> list htree -> list api_call := under_f calls_for.

Lemma calls_for_elem n tag ns ats cs : calls_for n (HElem tag ns ats cs) =
  (CreateElement tag :: map (fun kv => SetAttr n (fst kv) (snd kv)) ats ++ calls_under n (S n) cs)%list.
Proof.
  cbn. f_equal. f_equal. unfold calls_under. generalize (S n). induction cs as [|c cs IH]; intros m; [done|]. cbn.
  by rewrite IH.
Qed.

(** HTML elements with distinct attribute names only. *)
Fixpoint buildable (t : htree) : Prop :=
  match t with
  | HElem _ ns ats cs => ns = NsHtml /\ NoDup (map fst ats) /\
      (fix all (l : list htree) : Prop := match l with [] => True | c :: l => buildable c /\ all l end) cs
  | _ => True
  end.
Lemma buildable_elem t ns ats cs : buildable (HElem t ns ats cs) <->
  ns = NsHtml /\ NoDup (map fst ats) /\ forall c, c ∈ cs -> buildable c.
Proof.
  cbn. split; (intros (H1 & H2 & H3); split; [done|]; split; [done|]).
  - induction cs as [|c cs IH]; intros x Hx; [inversion Hx|]. destruct H3. apply elem_of_cons in Hx as [->|Hx]; auto.
  - induction cs as [|c cs IH]; [done|]. split; [apply H3; left|]. apply IH. intros x Hx. apply H3. by right.
Qed.

Lemma api_run_app cs cs' a : api_run a (cs ++ cs')%list = let! a' := api_run a cs in api_run a' cs'.
Proof.
  revert a. induction cs as [|c cs IH]; intros a; [done|]. cbn. destruct (api_step a c); cbn; [apply IH|done..].
Qed.

Lemma set_attrs_run a tag l l' :
  NoDup (map fst (l ++ l')) ->
  api_run (a ++ [mkNode (elem tag l NsHtml) None []])%list (map (fun kv => SetAttr (length a) (fst kv) (snd kv)) l') =
  Val (a ++ [mkNode (elem tag (l ++ l') NsHtml) None []])%list.
Proof.
  revert l. induction l' as [|[k v] l' IH]; intros l Hn; [by rewrite app_nil_r|]. cbn [map api_run api_step fst snd].
  assert (node_kind (a ++ [mkNode (elem tag l NsHtml) None []])%list (length a) = Some (NElem tag l)) as E.
  { unfold node_kind, data. rewrite lookup_app_r, Nat.sub_diag by lia. done. }
  rewrite E. cbn [obind].
  assert (attr_set k v l = l ++ [(k, v)])%list as Ea.
  { apply attr_set_notin. rewrite map_app in Hn. apply NoDup_app in Hn as (_ & H & _).
    intros Hin. apply (H k Hin). left. }
  assert (set_kind (a ++ [mkNode (elem tag l NsHtml) None []])%list (length a) (NElem tag (attr_set k v l)) =
          a ++ [mkNode (elem tag (l ++ [(k, v)]) NsHtml) None []])%list as ->.
  { unfold set_kind, data. rewrite lookup_app_r, Nat.sub_diag by lia. cbn [list_lookup lookup]. unfold set_data.
    rewrite alter_app_r_alt by lia. rewrite Nat.sub_diag. cbn. rewrite Ea. done. }
  rewrite (IH (l ++ [(k, v)])%list); rewrite <- app_assoc; done.
Qed.

Lemma clone_under_length l a n a' : clone_under a n l = Val a' -> length a' = length a + hsizes l.
Proof.
  revert a a'. assert (forall t a a' i, clone_tree a t = Val (a', i) -> i = length a /\ length a' = length a + hsize t) as Ht.
  { induction t as [s|s|t ns ats cs IH] using htree_ind'; intros a a' i.
    - cbn. intros [= <- <-]. rewrite app_length. cbn. lia.
    - cbn. intros [= <- <-]. rewrite app_length. cbn. lia.
    - rewrite clone_tree_elem, hsize_elem. cbn [new_node].
      set (a1 := (a ++ _)%list). assert (length a1 = S (length a)) as L1 by (subst a1; rewrite app_length; cbn; lia).
      clearbody a1. destruct (clone_under a1 (length a) cs) as [a2|e| |] eqn:E; cbn; try done. intros [= <- <-]. split; [done|].
      assert (length a2 = length a1 + hsizes cs) as E2; [|lia]. clear L1.
      revert a1 E. generalize (length a). induction cs as [|c cs IHc]; intros k a1 E; [injection E as <-; cbn; lia|].
      cbn [clone_under] in E. destruct (clone_tree a1 c) as [[b i]|e| |] eqn:Ec; cbn in E; try done.
      destruct (IH c (elem_of_list_here _ _) _ _ _ Ec) as [-> Lb].
      destruct (append b k (length a1)) as [b'|e| |] eqn:Eb; cbn in E; try done.
      assert (length b' = length b) as Lb'.
      { unfold append in Eb. destruct (Nat.eqb _ _); [done|]. destruct (is_ancestor _ _ _) as [[]|]; try done.
        injection Eb as <-. by rewrite length_set_parent, length_set_children, length_detach. }
      apply (IHc (fun x Hx => IH x (elem_of_list_further x c cs Hx))) in E. unfold hsizes in *. cbn. lia. }
  induction l as [|c cs IHc]; intros a1 a2 E; [injection E as <-; cbn; lia|].
  cbn [clone_under] in E. destruct (clone_tree a1 c) as [[b i]|e| |] eqn:Ec; cbn in E; try done.
  destruct (Ht _ _ _ _ Ec) as [-> Lb].
  destruct (append b n (length a1)) as [b'|e| |] eqn:Eb; cbn in E; try done.
  assert (length b' = length b) as Lb'.
  { unfold append in Eb. destruct (Nat.eqb _ _); [done|]. destruct (is_ancestor _ _ _) as [[]|]; try done.
    injection Eb as <-. by rewrite length_set_parent, length_set_children, length_detach. }
  apply IHc in E. unfold hsizes in *. cbn. lia.
Qed.

Definition calls_ok (t : htree) : Prop := forall a, wf a -> buildable t ->
  api_run a (calls_for (length a) t) = (let! r := clone_tree a t in Val (fst r)).

Lemma clone_tree_length t a a' i : clone_tree a t = Val (a', i) -> wf a -> i = length a /\ length a' = length a + hsize t.
Proof.
  intros E W. destruct (clone_tree_all t a W) as (a2 & E2 & _). rewrite E in E2. injection E2 as <- ->. split; [done|].
  destruct t as [t ns ats cs|s|s]; cbn in E.
  - change (clone_tree a (HElem t ns ats cs) = Val (a', length a)) in E. rewrite clone_tree_elem in E.
    cbn [new_node] in E. destruct (clone_under _ _ cs) as [b|e| |] eqn:Eu; cbn in E; try done. injection E as <-.
    apply clone_under_length in Eu. rewrite hsize_elem. rewrite app_length in Eu. cbn in Eu. lia.
  - injection E as <-. rewrite app_length. cbn. lia.
  - injection E as <-. rewrite app_length. cbn. lia.
Qed.

Lemma calls_under_ok l : (forall t, t ∈ l -> calls_ok t) -> (forall t, t ∈ l -> buildable t) -> forall a n, wf a -> n < length a ->
  api_run a (calls_under n (length a) l) = clone_under a n l.
Proof.
  intros Hok Hb. induction l as [|c l IH]; intros a n W Hn; [done|].
  unfold calls_under. cbn [under_f clone_under]. rewrite api_run_app.
  rewrite (Hok c (elem_of_list_here _ _) a W (Hb c (elem_of_list_here _ _))).
  destruct (clone_tree_all c a W) as (a1 & E1 & X & L & Po & _). rewrite E1. cbn [obind fst].
  destruct (clone_tree_length _ _ _ _ E1 W) as [_ L1]. destruct X as [W1 Lx Dx Cx Px].
  cbn [api_run api_step]. unfold exists_node.
  destruct (Nat.ltb_spec n (length a1)) as [_|]; [|lia]. destruct (Nat.ltb_spec (length a) (length a1)) as [_|]; [|lia]. cbn [andb].
  destruct (append_full a1 n (length a) W1) as (a2 & E2 & Lk); [lia|done|done| |].
  { intros (k & Hk & Hin). assert (chain a1 n k -> forall x, x = n \/ x ∈ k -> x < length a) as Hlt.
    { intros _ x [->|Hx]; [done|]. clear Hin. destruct (wf_chain a W n) as [k' Hk'].
      assert (chain a1 n k') as Hk1.
      { eapply chain_agree; [exact Hk'|]. intros y [->|Hy]; apply Px; [done|]. by eapply chain_lt. }
      rewrite (chain_det _ _ _ _ Hk Hk1) in Hx. by eapply chain_lt. }
    specialize (Hlt Hk (length a)). destruct Hin as [Hin|Hin]; [lia|]. specialize (Hlt (or_intror Hin)). lia. }
  rewrite E2. cbn [obind]. destruct Lk as [W2 L2 _ _ _].
  replace (length a + hsize c) with (length a2) by lia. apply IH; [| |done|lia]; intros t Ht; [apply Hok|apply Hb]; by right.
Qed.

Lemma calls_all t : calls_ok t.
Proof.
  induction t as [s|s|t ns ats cs IH] using htree_ind'; intros a W Hb.
  - done.
  - done.
  - apply buildable_elem in Hb as (-> & Hn & Hc). rewrite calls_for_elem, clone_tree_elem.
    cbn [api_run api_step new_node fst obind]. rewrite api_run_app.
    pose proof (set_attrs_run a t [] ats Hn) as E. cbn [app] in E. unfold elem in E |- *.
    refine (eq_trans (f_equal (fun o => let! a' := o in api_run a' (calls_under (length a) (S (length a)) cs)) E) _).
    cbn [obind].
    set (a1 := (a ++ [mkNode (mkD (NElem t ats) NsHtml) None []])%list).
    assert (length a1 = S (length a)) as L1 by (subst a1; rewrite app_length; cbn; lia).
    rewrite <- L1. rewrite (calls_under_ok cs IH Hc a1 (length a)); [|apply wf_new; done|lia].
    destruct (clone_under a1 (length a) cs); done.
Qed.

Lemma api_safe_app cs cs' a : api_safe a (cs ++ cs')%list <->
  api_safe a cs /\ match api_run a cs with Val a' => api_safe a' cs' | _ => True end.
Proof.
  revert a. induction cs as [|c cs IH]; intros a; cbn [app api_safe api_run]; [tauto|].
  destruct (api_step a c) as [a'|e| |]; cbn [obind]; [rewrite IH|..]; tauto.
Qed.

Lemma set_attrs_safe n l a : api_safe a (map (fun kv : qname * string => SetAttr n (fst kv) (snd kv)) l).
Proof.
  revert a. induction l as [|kv l IH]; intros a; [done|]. cbn [map api_safe]. split; [done|].
  by destruct (api_step a _).
Qed.

Lemma holds_not_document a t i : holds a t i -> node_kind a i <> Some NDocument.
Proof.
  destruct t as [t ns ats cs|s|s].
  - intros H. apply holds_elem in H as [H _]. unfold node_kind. by rewrite H.
  - intros [H _]. by rewrite H.
  - intros [H _]. by rewrite H.
Qed.

Lemma calls_under_safe l : (forall t, t ∈ l -> forall a, wf a -> buildable t -> api_safe a (calls_for (length a) t)) ->
  (forall t, t ∈ l -> buildable t) ->
  forall a n, wf a -> container a n -> api_safe a (calls_under n (length a) l).
Proof.
  intros Hok Hb. induction l as [|c l IH]; intros a n W Hc; [done|].
  assert (n < length a) as Hn.
  { unfold container, node_kind in Hc. destruct (data a n) eqn:E; [|done]. by eapply data_lt. }
  unfold calls_under. cbn [under_f]. apply api_safe_app. split; [apply Hok; [left|done|apply Hb; left]|].
  rewrite (calls_all c a W (Hb c (elem_of_list_here _ _))).
  destruct (clone_tree_all c a W) as (a1 & E1 & X & L & Po & Hh). rewrite E1. cbn [obind fst].
  destruct (clone_tree_length _ _ _ _ E1 W) as [_ L1]. destruct X as [W1 Lx Dx Cx Px].
  assert (container a1 n) as Hc1.
  { unfold container in *. rewrite (kind_of_data a a1); [done|]. by apply Dx. }
  cbn [api_safe api_ok api_step]. split; [split; [done|by eapply holds_not_document]|]. unfold exists_node.
  destruct (Nat.ltb_spec n (length a1)) as [_|]; [|lia]. destruct (Nat.ltb_spec (length a) (length a1)) as [_|]; [|lia]. cbn [andb].
  destruct (append_cases a1 n (length a) W1) as [[_ ->]|(_ & a2 & -> & R)]; [lia|lia|done|].
  replace (length a + hsize c) with (length a2) by (rewrite (rl_len _ _ _ _ _ R); lia).
  apply IH; [intros t Ht; apply Hok; by right|intros t Ht; apply Hb; by right|apply R|].
  unfold container in *. rewrite (kind_of_data a1 a2); [done|]. apply R.
Qed.

Lemma calls_safe t a : wf a -> buildable t -> api_safe a (calls_for (length a) t).
Proof.
  revert a. induction t as [s|s|t ns ats cs IH] using htree_ind'; intros a W Hb; [done..|].
  apply buildable_elem in Hb as (-> & Hn & Hc). rewrite calls_for_elem.
  cbn [api_safe api_step new_node fst]. split; [done|]. apply api_safe_app. split; [apply set_attrs_safe|].
  pose proof (set_attrs_run a t [] ats Hn) as E. cbn [app] in E. unfold elem in E |- *.
  match goal with |- match ?x with _ => _ end => replace x with (Val (a ++ [mkNode (mkD (NElem t ats) NsHtml) None []])%list) end.
  set (a1 := (a ++ [mkNode (mkD (NElem t ats) NsHtml) None []])%list).
  assert (length a1 = S (length a)) as L1 by (subst a1; rewrite app_length; cbn; lia).
  rewrite <- L1. apply calls_under_safe; [done..|apply wf_new; done|].
  unfold container, node_kind, data. subst a1. rewrite lookup_app_r, Nat.sub_diag by lia. done.
Qed.

(** A decision procedure for the contract (for examples). *)
Definition api_ok_b (a : arena dnode) (c : api_call) : bool :=
  match c with
  | AppendChild p c =>
      match node_kind a p with Some (NElem _ _) | Some NDocument => true | _ => false end &&
      match node_kind a c with Some NDocument => false | _ => true end
  | InsertBefore s n | InsertAfter s n =>
      match node_kind a n with Some NDocument => false | _ => true end &&
      match parent a s with
      | Some q => Nat.eqb n q || match ancestors (S (length a)) a q with
                                 | Some l => negb (existsb (Nat.eqb n) l)
                                 | None => false
                                 end
      | None => false
      end
  | _ => true
  end.
Fixpoint api_safe_b (a : arena dnode) (cs : list api_call) : bool :=
  match cs with
  | [] => true
  | c :: cs => api_ok_b a c && match api_step a c with Val a' => api_safe_b a' cs | _ => true end
  end.

Lemma sibling_check (a : arena dnode) s n : match node_kind a n with Some NDocument => false | _ => true end &&
      match parent a s with
      | Some q => Nat.eqb n q || match ancestors (S (length a)) a q with
                                 | Some l => negb (existsb (Nat.eqb n) l)
                                 | None => false
                                 end
      | None => false
      end = true -> node_kind a n <> Some NDocument /\ exists q, parent a s = Some q /\ (n = q \/ ~ above a n q).
Proof.
  intros H. apply andb_true_iff in H as [H1 H2]. split; [by destruct (node_kind a n) as [[]|]|].
  destruct (parent a s) as [q|]; [|done]. exists q. split; [done|].
  destruct (Nat.eqb_spec n q) as [->|Hne]; [by left|]. right. cbn [orb] in H2.
  destruct (ancestors (S (length a)) a q) as [l|] eqn:E; [|done]. apply ancestors_some in E.
  intros (k & Hk & [->|Hin]); [done|]. rewrite (chain_det _ _ _ _ Hk E) in Hin.
  apply negb_true_iff in H2. apply not_true_iff_false in H2. apply H2, existsb_exists. exists n.
  split; [by apply elem_of_list_In|apply Nat.eqb_refl].
Qed.

Lemma api_safe_check cs a : api_safe_b a cs = true -> api_safe a cs.
Proof.
  revert a. induction cs as [|c cs IH]; intros a; [done|]. cbn [api_safe_b api_safe]. intros H.
  apply andb_true_iff in H as [H1 H2]. split; [|destruct (api_step a c); auto].
  destruct c as [t|s|s|p n|s n|s n|n|e q v|e q|n s]; cbn [api_ok api_ok_b] in *; try done.
  - apply andb_true_iff in H1 as [H1 H3]. split; unfold container; [by destruct (node_kind a p) as [[]|]|by destruct (node_kind a n) as [[]|]].
  - by apply sibling_check.
  - by apply sibling_check.
Qed.
