(** C47: the DOM manipulation API of [Document]. *)
From Verif Require Import Base Arena Links Matching Chawathe Dom HtmlDiff DomApi ArenaProofs ArenaOps AttrProofs DomTree
  ApplyProofs SinkProofs LinkProofs ConvTotal DiffTotal ParseProofs ApiProofs WfCheck Instances InstanceProofs.
Local Open Scope string_scope.

(** C47: a new document is the empty page. *)
Theorem new_document : exists d,
  doc_new = Val d /\ proper d /\ doc_doctype d = None /\ head d = Some 1 /\ body d = Some 2 /\
  to_html d = Some "<html><head></head><body></body></html>".
Proof.
  eexists. split; [vm_compute; reflexivity|]. split; [|vm_compute; auto].
  apply sound_proper. pose proof (api_run_sound [CreateElement "html"; CreateElement "head"; AppendChild 0 1; CreateElement "body"; AppendChild 0 2] []) as H.
  assert (sound []) as S.
  { split; try done. split; [|intros; apply NoDup_nil_2|intros i; exists []; by constructor].
    intros i p. split; [done|]. intros Hx. inversion Hx. }
  specialize (H S). vm_compute in H. apply H. repeat split; done.
Qed.
Print Assumptions new_document.

(** Attribute names are distinct within every element. *)
Definition distinct_attrs (a : arena dnode) : Prop :=
  forall i tag ns l, data a i = Some (mkD (NElem tag l) ns) -> NoDup (map fst l).

(** C47: calls that keep the contract [api_ok] (only elements and documents get
    children, the document node is not attached, a sibling has a parent, nothing
    is inserted below its own descendant) panic or return; the document stays a
    tree in which texts and comments are leaves, with distinct attribute names. *)
Theorem api_keeps_tree : forall d cs,
  proper d -> distinct_attrs (doc_arena d) -> api_safe (doc_arena d) cs ->
  api_doc d cs = Panic \/
  exists d', api_doc d cs = Val d' /\ proper d' /\ distinct_attrs (doc_arena d') /\
             doc_root d' = doc_root d /\ doc_doctype d' = doc_doctype d.
Proof.
  intros d cs P Ha Hs. assert (sound (doc_arena d)) as S by (split; [apply P..|done]).
  pose proof (api_run_sound cs _ S Hs) as H. unfold api_doc. destruct (api_run (doc_arena d) cs) as [a'|e| |]; cbn [obind]; try done.
  - right. eexists. split; [reflexivity|]. split; [by apply sound_proper|]. split; [|done]. intros i tag ns l. apply H.
  - by left.
Qed.
Print Assumptions api_keeps_tree.

(** In particular, documents made with the API can be diffed. *)
Theorem api_documents_diff : forall Hash (heqb : Hash -> Hash -> bool) hcomb h0 d0 cs cs' d d',
  doc_new = Val d0 -> api_safe (doc_arena d0) cs -> api_safe (doc_arena d0) cs' ->
  api_doc d0 cs = Val d -> api_doc d0 cs' = Val d' ->
  exists ps, diff heqb hcomb h0 d d' = Val ps.
Proof.
  intros Hash heqb hcomb h0 d0 cs cs' d d' E0 S S' E E'.
  assert (proper d0 /\ distinct_attrs (doc_arena d0)) as [P Ha].
  { destruct new_document as (d1 & E1 & P & _). rewrite E0 in E1. injection E1 as <-. split; [done|].
    vm_compute in E0. injection E0 as <-. intros i tag ns l. cbn [doc_arena].
    destruct i as [|[|[|i]]]; cbn; intros [= <- <- <-] || intros H; try apply NoDup_nil_2; done. }
  destruct (api_keeps_tree d0 cs P Ha S) as [?|(d1 & E1 & P1 & _)]; [congruence|].
  destruct (api_keeps_tree d0 cs' P Ha S') as [?|(d2 & E2 & P2 & _)]; [congruence|].
  apply diff_total_all; congruence.
Qed.
Print Assumptions api_documents_diff.

(** C47: which calls panic, on any well formed arena. *)
Theorem api_panics_exactly : forall a c,
  wf a ->
  (api_step a c = Panic <->
   match c with
   | CreateElement _ | CreateText _ | CreateComment _ => False
   | AppendChild p n => length a <= p \/ length a <= n \/ above a n p
   | InsertBefore s n | InsertAfter s n => length a <= s \/ length a <= n \/ s = n \/ parent a s = Some n
   | RemoveNode n | SetAttr n _ _ | RemoveAttr n _ | SetText n _ => length a <= n
   end).
Proof.
  assert (forall a i, node_kind a i = None <-> length a <= i) as K.
  { intros a i. unfold node_kind, data. destruct (a !! i) as [x|] eqn:E.
    - apply lookup_lt_Some in E. split; [done|lia].
    - apply lookup_ge_None in E. done. }
  assert (forall (a : arena dnode) s n, s <> n -> parent (detach a n) s = parent a s) as Pd.
  { intros a s n Hs. rewrite parent_detach. by destruct (Nat.eqb_spec s n). }
  intros a c W. destruct c as [t|s|s|p n|s n|s n|n|e q v|e q|n s]; cbn [api_step] in *; try done; unfold exists_node.
  - destruct (Nat.ltb_spec p (length a)) as [Hp|Hp]; cbn [andb]; [|split; [by left|done]].
    destruct (Nat.ltb_spec n (length a)) as [Hn|Hn]; cbn [andb]; [|split; [by right; left|done]].
    destruct (append_cases a p n W Hp Hn) as [[Ha E]|(Ha & a' & E & _)]; rewrite E.
    + split; [by right; right|done].
    + split; [done|]. intros [?|[?|?]]; [lia|lia|done].
  - destruct (Nat.ltb_spec s (length a)) as [Hs|]; cbn [andb]; [|split; [by left|done]].
    destruct (Nat.ltb_spec n (length a)) as [Hn|Hn]; [|split; [by right; left|done]].
    unfold insert_before. destruct (Nat.eqb_spec s n) as [->|Hne]; [split; auto|]. rewrite Pd by done.
    destruct (parent a s) as [q|]; [|split; [done|intros [?|[?|[?|?]]]; [lia|lia|done|done]]].
    destruct (Nat.eqb_spec q n) as [->|]; [split; auto|]. split; [done|]. intros [?|[?|[?|?]]]; [lia|lia|done|congruence].
  - destruct (Nat.ltb_spec s (length a)) as [Hs|]; cbn [andb]; [|split; [by left|done]].
    destruct (Nat.ltb_spec n (length a)) as [Hn|Hn]; [|split; [by right; left|done]].
    unfold insert_after. destruct (Nat.eqb_spec s n) as [->|Hne]; [split; auto|]. rewrite Pd by done.
    destruct (parent a s) as [q|]; [|split; [done|intros [?|[?|[?|?]]]; [lia|lia|done|done]]].
    destruct (Nat.eqb_spec q n) as [->|]; [split; auto|]. split; [done|]. intros [?|[?|[?|?]]]; [lia|lia|done|congruence].
  - destruct (Nat.ltb_spec n (length a)); split; try done; lia.
  - rewrite <- K. by destruct (node_kind a e) as [[]|].
  - rewrite <- K. by destruct (node_kind a e) as [[]|].
  - rewrite <- K. by destruct (node_kind a n) as [[]|].
Qed.
Print Assumptions api_panics_exactly.

(** C47: the queries, through parents and siblings alone. *)
Theorem api_queries : forall a i,
  wf a ->
  (forall c, first_child a i = Some c <-> parent a c = Some i /\ previous_sibling a c = None) /\
  (forall c, last_child a i = Some c <-> parent a c = Some i /\ next_sibling a c = None) /\
  (forall c c', next_sibling a c = Some c' <-> previous_sibling a c' = Some c) /\
  child_count a i = length (List.filter (fun c => bool_decide (parent a c = Some i)) (seq 0 (length a))).
Proof.
  intros a i W.
  assert (forall c p k, children a p !! k = Some c -> parent a c = Some p /\
            next_sibling a c = children a p !! S k /\
            previous_sibling a c = match k with 0 => None | S k' => children a p !! k' end) as Hc.
  { intros c p k Hk. assert (parent a c = Some p) as Hp by (apply W; by eapply elem_of_list_lookup_2).
    split; [done|]. unfold next_sibling, previous_sibling. rewrite Hp. split.
    - apply next_in_lookup; [apply W|done].
    - destruct k as [|k]; [apply prev_in_first; [apply W|done]|]. apply prev_in_lookup; [apply W|done]. }
  assert (forall c p, parent a c = Some p -> exists k, children a p !! k = Some c) as Hp.
  { intros c p Hp. apply elem_of_list_lookup. by apply W. }
  split; [|split; [|split]].
  - intros c. unfold first_child. split.
    + intros H. assert (children a i !! 0 = Some c) as H0 by (by destruct (children a i)).
      destruct (Hc _ _ _ H0) as (? & _ & ?). done.
    + intros [H1 H2]. destruct (Hp _ _ H1) as [k Hk]. destruct (Hc _ _ _ Hk) as (_ & _ & H3). rewrite H2 in H3.
      destruct k as [|k]; [by destruct (children a i)|]. exfalso. apply lookup_lt_Some in Hk. symmetry in H3. apply lookup_ge_None in H3. lia.
  - intros c. unfold last_child. rewrite last_lookup. split.
    + intros H. destruct (Hc _ _ _ H) as (? & Hn & _). split; [done|]. rewrite Hn. apply lookup_ge_None. lia.
    + intros [H1 H2]. destruct (Hp _ _ H1) as [k Hk]. destruct (Hc _ _ _ Hk) as (_ & H3 & _). rewrite H2 in H3.
      symmetry in H3. apply lookup_ge_None in H3. pose proof (lookup_lt_Some _ _ _ Hk) as Hlt.
      by replace (pred (length (children a i))) with k by lia.
  - intros c c'. split.
    + intros H. destruct (parent a c) as [p|] eqn:Ep; [|unfold next_sibling in H; by rewrite Ep in H].
      destruct (Hp _ _ Ep) as [k Hk]. destruct (Hc _ _ _ Hk) as (_ & H3 & _). rewrite H in H3. symmetry in H3.
      by destruct (Hc _ _ _ H3) as (_ & _ & ->).
    + intros H. destruct (parent a c') as [p|] eqn:Ep; [|unfold previous_sibling in H; by rewrite Ep in H].
      destruct (Hp _ _ Ep) as [k Hk]. destruct (Hc _ _ _ Hk) as (_ & _ & H3). rewrite H in H3. destruct k as [|k]; [done|]. symmetry in H3.
      by destruct (Hc _ _ _ H3) as (_ & -> & _).
  - unfold child_count. apply Permutation_length, NoDup_Permutation; [apply W| |].
    + apply NoDup_ListNoDup, List.NoDup_filter, seq_NoDup.
    + intros c. rewrite elem_of_list_In, elem_of_list_In, filter_In, in_seq, bool_decide_eq_true, <- elem_of_list_In.
      rewrite <- (wf_pc _ W). split; [|tauto]. intros Hx. split; [|done]. apply parent_lt in Hx. lia.
Qed.
Print Assumptions api_queries.

Definition without (n : nat) (l : list nat) : list nat := List.filter (fun x => negb (Nat.eqb x n)) l.

(** Nodes and content as before; [n] now has parent [p]; in the children of all
    other nodes only [n] can be missing. *)
Definition only_moved (a a' : arena dnode) (n : nat) (p : option nat) : Prop :=
  length a' = length a /\ (forall j, data a' j = data a j) /\ parent a' n = p /\
  (forall j, j <> n -> parent a' j = parent a j) /\
  (forall j, Some j <> p -> children a' j = without n (children a j)).

(** Only the content of node [n] changes, to [dn]. *)
Definition only_content (a a' : arena dnode) (n : nat) (dn : dnode) : Prop :=
  length a' = length a /\ data a' n = Some dn /\ (forall j, j <> n -> data a' j = data a j) /\
  (forall j, parent a' j = parent a j) /\ (forall j, children a' j = children a j).

(** A detached node without children is added, nothing else changes. *)
Definition only_created (a a' : arena dnode) (dn : dnode) : Prop :=
  length a' = S (length a) /\ data a' (length a) = Some dn /\ parent a' (length a) = None /\ children a' (length a) = [] /\
  (forall j, j < length a -> data a' j = data a j /\ parent a' j = parent a j /\ children a' j = children a j).

(** C47: what each call does when it returns. *)
Theorem api_effects : forall a c a',
  wf a -> api_ok a c -> api_step a c = Val a' ->
  match c with
  | CreateElement t => only_created a a' (mkD (NElem t []) NsHtml)
  | CreateText s => only_created a a' (mkD (NText s) NsHtml)
  | CreateComment s => only_created a a' (mkD (NComment s) NsHtml)
  | AppendChild p n =>
      only_moved a a' n (Some p) /\ children a' p = (without n (children a p) ++ [n])%list /\ last_child a' p = Some n
  | InsertBefore s n => exists q l1 l2,
      parent a s = Some q /\ only_moved a a' n (Some q) /\ without n (children a q) = (l1 ++ s :: l2)%list /\
      children a' q = (l1 ++ n :: s :: l2)%list /\ next_sibling a' n = Some s /\ previous_sibling a' s = Some n
  | InsertAfter s n => exists q l1 l2,
      parent a s = Some q /\ only_moved a a' n (Some q) /\ without n (children a q) = (l1 ++ s :: l2)%list /\
      children a' q = (l1 ++ s :: n :: l2)%list /\ next_sibling a' s = Some n /\ previous_sibling a' n = Some s
  | RemoveNode n => only_moved a a' n None
  | SetAttr e q v =>
      (exists t l ns, data a e = Some (mkD (NElem t l) ns) /\
         exists l', only_content a a' e (mkD (NElem t l') ns) /\
           attr_get q l' = Some v /\ (forall q', q' <> q -> attr_get q' l' = attr_get q' l) /\
           map fst l' = if existsb (qname_eqb q) (map fst l) then map fst l else (map fst l ++ [q])%list)
      \/ (forall t l, node_kind a e <> Some (NElem t l)) /\ a' = a
  | RemoveAttr e q =>
      (exists t l ns, data a e = Some (mkD (NElem t l) ns) /\
         only_content a a' e (mkD (NElem t (List.filter (fun kv => negb (qname_eqb (fst kv) q)) l)) ns))
      \/ (forall t l, node_kind a e <> Some (NElem t l)) /\ a' = a
  | SetText n s =>
      (exists s0 ns, data a n = Some (mkD (NText s0) ns) /\ only_content a a' n (mkD (NText s) ns))
      \/ (forall s0, node_kind a n <> Some (NText s0)) /\ a' = a
  end.
Proof.
  assert (Hm : forall a a' p n cs, relinked a a' p n cs -> only_moved a a' n (Some p) /\ children a' p = cs).
  { intros a a' p n cs [W L D C P]. split.
    - split; [done|]. split; [done|]. split; [by rewrite P, Nat.eqb_refl|]. split.
      + intros j Hj. rewrite P. by destruct (Nat.eqb_spec j n).
      + intros j Hj. rewrite C. destruct (Nat.eqb_spec j p); [congruence|]. unfold without. apply remove_id_filter.
    - by rewrite C, Nat.eqb_refl. }
  assert (Hn : forall a d, wf a -> only_created a (fst (new_node a d)) d).
  { intros a d W. destruct (new_node_full a d W) as (_ & L & P & C & D & Cj & Pj & Dj). split_and!; try done.
    intros j Hj. split_and!; [apply Dj; lia|apply Pj|apply Cj]. }
  assert (Hk : forall a n k0 ns k, data a n = Some (mkD k0 ns) -> only_content a (set_kind a n k) n (mkD k ns)).
  { intros a n k0 ns k E. split; [apply len_set_kind|]. split; [by rewrite (set_kind_data a n _ _ _ E), Nat.eqb_refl|].
    split; [|split; intros j; [apply parent_set_kind|apply children_set_kind]].
    intros j Hj. rewrite (set_kind_data a n _ _ _ E). by destruct (Nat.eqb_spec j n). }
  assert (Hp : forall (a : arena dnode) q l1 l2 x y, wf a -> children a q = (l1 ++ x :: y :: l2)%list ->
     next_sibling a x = Some y /\ previous_sibling a y = Some x).
  { intros a q l1 l2 x y W E. unfold next_sibling, previous_sibling.
    assert (children a q !! length l1 = Some x) as E1 by (rewrite E, lookup_app_r, Nat.sub_diag by lia; done).
    assert (children a q !! S (length l1) = Some y) as E2.
    { rewrite E, lookup_app_r by lia. by replace (S (length l1) - length l1) with 1 by lia. }
    assert (parent a x = Some q) as -> by (apply W; by eapply elem_of_list_lookup_2).
    assert (parent a y = Some q) as -> by (apply W; by eapply elem_of_list_lookup_2).
    rewrite (next_in_lookup _ (length l1)) by (done || apply W). rewrite (prev_in_lookup _ (length l1)) by (done || apply W). done. }
  intros a c a' W Hc E. destruct c as [t|s|s|p n|s n|s n|n|e q v|e q|n s]; cbn [api_step api_ok] in *.
  - injection E as <-. by apply Hn.
  - injection E as <-. by apply Hn.
  - injection E as <-. by apply Hn.
  - unfold exists_node in E. destruct (Nat.ltb_spec p (length a)) as [Hl|]; [|done]. destruct (Nat.ltb_spec n (length a)) as [Hl'|]; [|done].
    cbn [andb] in E. destruct (append_cases a p n W Hl Hl') as [[_ E']|(_ & b & E' & R)]; rewrite E in E'; [done|].
    injection E' as <-. apply Hm in R as [R1 R2]. split; [done|]. unfold last_child. rewrite R2. rewrite remove_id_filter.
    split; [done|]. apply last_snoc.
  - unfold exists_node in E. destruct Hc as (_ & q & Hq & Ha). destruct (Nat.ltb_spec s (length a)) as [_|]; [|done].
    destruct (Nat.ltb_spec n (length a)) as [Hl|]; [|done]. cbn [andb] in E.
    destruct (insert_before_cases a s n q W Hl Hq Ha) as [[_ E']|(_ & _ & b & l1 & l2 & E' & Er & _ & R)]; rewrite E in E'; [done|].
    injection E' as <-. exists q, l1, l2. pose proof (rl_wf _ _ _ _ _ R) as W'. apply Hm in R as [R1 R2].
    rewrite remove_id_filter in Er. split_and!; try done; by eapply Hp.
  - unfold exists_node in E. destruct Hc as (_ & q & Hq & Ha). destruct (Nat.ltb_spec s (length a)) as [_|]; [|done].
    destruct (Nat.ltb_spec n (length a)) as [Hl|]; [|done]. cbn [andb] in E.
    destruct (insert_after_cases a s n q W Hl Hq Ha) as [[_ E']|(_ & _ & b & l1 & l2 & E' & Er & _ & R)]; rewrite E in E'; [done|].
    injection E' as <-. exists q, l1, l2. pose proof (rl_wf _ _ _ _ _ R) as W'. apply Hm in R as [R1 R2].
    rewrite remove_id_filter in Er. split_and!; try done; by eapply Hp.
  - destruct (exists_node a n); [|done]. injection E as <-. split; [apply length_detach|]. split; [intros; apply data_detach|].
    split; [by rewrite parent_detach, Nat.eqb_refl|]. split.
    + intros j Hj. rewrite parent_detach. by destruct (Nat.eqb_spec j n).
    + intros j _. rewrite children_detach by done. apply remove_id_filter.
  - destruct (node_kind a e) as [[|t l|x|x]|] eqn:Ek; [by injection E as <-; right| |by injection E as <-; right|by injection E as <-; right|done].
    injection E as <-. left. apply node_kind_data in Ek as ([k ns] & Ed & Ek). cbn in Ek. subst k. exists t, l, ns. split; [done|].
    exists (attr_set q v l). split; [by eapply Hk|]. split; [apply attr_get_set_same|]. split.
    + intros q' Hq'. apply attr_get_set_other. congruence.
    + destruct (existsb (qname_eqb q) (map fst l)) eqn:Ex.
      * apply existsb_qname in Ex. by apply keys_attr_set_in.
      * rewrite attr_set_notin; [by rewrite map_app|]. intros Hin. apply existsb_qname in Hin. unfold keys in Hin. congruence.
  - destruct (node_kind a e) as [[|t l|x|x]|] eqn:Ek; [by injection E as <-; right| |by injection E as <-; right|by injection E as <-; right|done].
    injection E as <-. left. apply node_kind_data in Ek as ([k ns] & Ed & Ek). cbn in Ek. subst k. exists t, l, ns. split; [done|].
    by eapply Hk.
  - destruct (node_kind a n) as [[|t l|x|x]|] eqn:Ek; [by injection E as <-; right|by injection E as <-; right| |by injection E as <-; right|done].
    injection E as <-. left. apply node_kind_data in Ek as ([k ns] & Ed & Ek). cbn in Ek. subst k. exists x, ns. split; [done|].
    by eapply Hk.
Qed.
Print Assumptions api_effects.

(** C47: every content of HTML elements (distinct attribute names), texts and
    comments can be built in a new document by calls that keep the contract; the
    document then serializes with that content in its body. *)
Theorem api_builds : forall hs d0,
  doc_new = Val d0 -> (forall t, t ∈ hs -> buildable t) ->
  exists cs d s, api_safe (doc_arena d0) cs /\ api_doc d0 cs = Val d /\ body d = Some 2 /\
    holds_list (doc_arena d) hs (children (doc_arena d) 2) /\
    to_body_html d = Some s /\ to_html d = Some ("<html><head></head><body>" ++ s ++ "</body></html>").
Proof.
  intros hs d0 E0 Hb. destruct new_document as (d1 & E1 & P & _). rewrite E0 in E1. injection E1 as <-.
  vm_compute in E0. injection E0 as <-. match type of P with proper ?d => set (d0 := d) in *; set (a0 := doc_arena d) end.
  pose proof (pp_wf _ P) as W. change (doc_arena d0) with a0 in *.
  pose proof (calls_under_ok hs (fun t _ => calls_all t) Hb a0 2 W) as E. change (length a0) with 3 in E.
  specialize (E ltac:(lia)). destruct (clone_under_all a0 2 hs W) as (a & ids & Ec & CL); [cbn; lia|].
  rewrite Ec in E. exists (calls_under 2 3 hs), (mkDoc a 0 None), (ser_ts false hs).
  split.
  { apply (calls_under_safe hs (fun t _ => calls_safe t) Hb a0 2 W). done. }
  split.
  { unfold api_doc. change (doc_arena d0) with a0. rewrite E. done. }
  destruct CL as [Wa La Da Ca Pa Ia Ha]. change (length a0) with 3 in *.
  assert (children a 2 = ids) as C2 by (rewrite Ca by lia; done).
  assert (children a 0 = [1; 2]) as C0 by (rewrite Ca by lia; done).
  assert (children a 1 = []) as C1 by (rewrite Ca by lia; done).
  assert (data a 0 = Some (mkD (NElem "html" []) NsHtml)) as D0 by (rewrite Da by lia; done).
  assert (data a 1 = Some (mkD (NElem "head" []) NsHtml)) as D1 by (rewrite Da by lia; done).
  assert (data a 2 = Some (mkD (NElem "body" []) NsHtml)) as D2 by (rewrite Da by lia; done).
  assert (holds a (HElem "html" NsHtml [] [HElem "head" NsHtml [] []; HElem "body" NsHtml [] hs]) 0) as Hr.
  { apply holds_elem. split; [done|]. rewrite C0. constructor; [|constructor; [|constructor]].
    - apply holds_elem. split; [done|]. rewrite C1. constructor.
    - apply holds_elem. split; [done|]. by rewrite C2. }
  assert (body (mkDoc a 0 None) = Some 2) as Eb.
  { unfold body, body_in. cbn [doc_arena doc_root]. rewrite C0. cbn [find]. unfold has_tag, node_kind. rewrite D1, D2. done. }
  split_and!.
  - done.
  - cbn [doc_arena]. by rewrite C2.
  - unfold to_body_html. rewrite Eb. cbn [doc_arena]. apply serialize_inner_holds; [done|]. by rewrite C2.
  - unfold to_html, to_html_without_doctype. cbn [doc_arena doc_root doc_doctype].
    rewrite (serialize_node_holds a _ 0 Wa Hr). rewrite ser_t_elem. cbn [ser_ts].
    rewrite !ser_t_elem. change (is_raw_text_element "body") with false. cbn [ser_ts]. generalize (ser_ts false hs). intros s. cbn. by rewrite ?sapp_assoc'.
Qed.
Print Assumptions api_builds.

(** A page built by hand: an element with attributes, reordering, removal. *)
Definition api_calls : list api_call :=
  [CreateElement "p"; CreateText "one"; CreateElement "p"; CreateText "two"; CreateComment "c";
   AppendChild 3 4; AppendChild 5 6; AppendChild 2 5; InsertBefore 5 3; InsertAfter 3 7;
   SetAttr 3 (mkQ None "" "id") "a"; SetAttr 3 (mkQ None "" "class") "x"; SetAttr 3 (mkQ None "" "id") "b";
   RemoveAttr 3 (mkQ None "" "class"); SetText 6 "deux"; AppendChild 2 3].
Example api_example : exists d0 d,
  doc_new = Val d0 /\ proper d0 /\ distinct_attrs (doc_arena d0) /\ api_safe (doc_arena d0) api_calls /\
  api_doc d0 api_calls = Val d /\
  to_body_html d = Some "<!--c--><p>deux</p><p id=""b"">one</p>" /\
  next_sibling (doc_arena d) 7 = Some 5 /\ previous_sibling (doc_arena d) 3 = Some 5 /\ child_count (doc_arena d) 2 = 3 /\
  first_child (doc_arena d) 2 = Some 7 /\ last_child (doc_arena d) 2 = Some 3.
Proof.
  destruct new_document as (d0 & E0 & P & _). pose proof E0 as E. vm_compute in E. injection E as E. subst d0.
  eexists _, _. split; [exact E0|]. split; [exact P|]. split.
  { intros i tag ns l. cbn [doc_arena].
    destruct i as [|[|[|i]]]; cbn; intros [= <- <- <-] || intros H; try apply NoDup_nil_2; done. }
  split; [apply api_safe_check; vm_compute; reflexivity|]. vm_compute. auto 12.
Qed.

(** Panics: a node below itself, beside itself, beside its child. *)
Example api_example_panics : forall a0 cs c,
  cs = [CreateElement "p"; CreateElement "b"; AppendChild 3 4] -> c ∈ [AppendChild 4 3; InsertBefore 4 4; InsertAfter 4 3] ->
  (exists d0, doc_new = Val d0 /\ a0 = doc_arena d0) -> api_safe a0 (cs ++ [c])%list /\ api_run a0 (cs ++ [c])%list = Panic.
Proof.
  intros a0 cs c -> Hc (d0 & E & ->). vm_compute in E. injection E as <-.
  rewrite !elem_of_cons, elem_of_nil in Hc. destruct Hc as [->|[->|[->|[]]]];
    (split; [apply api_safe_check|]; vm_compute; reflexivity).
Qed.

Example api_builds_example :
  let t := HElem "p" NsHtml [ex_attr "id" "x"; ex_attr "class" "y"] [HText "a"; HElem "br" NsHtml [] []; HComment "c"] in
  buildable t /\ calls_for 3 t = [CreateElement "p"; SetAttr 3 (mkQ None "" "id") "x"; SetAttr 3 (mkQ None "" "class") "y";
    CreateText "a"; AppendChild 3 4; CreateElement "br"; AppendChild 3 5; CreateComment "c"; AppendChild 3 6].
Proof.
  cbn zeta. split; [|reflexivity]. cbn. split_and!; try done.
  - apply NoDup_cons. split; [|apply NoDup_singleton]. rewrite elem_of_list_singleton. done.
  - apply NoDup_nil_2.
Qed.

(** Finding: [insert_before] accepts a node above the sibling's parent; the
    document is then cyclic. *)
Theorem api_cycle_refuted : exists d0 cs a',
  doc_new = Val d0 /\ api_run (doc_arena d0) cs = Val a' /\ ~ wf a'.
Proof.
  eexists _, [CreateElement "p"; CreateElement "b"; CreateElement "i"; AppendChild 3 4; AppendChild 4 5; InsertBefore 5 3], _.
  split; [vm_compute; reflexivity|]. split; [vm_compute; reflexivity|].
  intros W. destruct (wf_chain _ W 3) as [l Hl].
  assert (exists l', l = 4 :: 3 :: l')%list as [l' ->].
  { inversion Hl as [? E|? p l0 E Hl']; subst; [discriminate E|]. injection E as <-.
    inversion Hl' as [? E'|? p' l1 E' Hl'']; subst; [discriminate E'|]. injection E' as <-. eauto. }
  apply chain_not_self in Hl. apply Hl. right. left.
Qed.
Print Assumptions api_cycle_refuted.

(** Finding: [append_child] accepts a text node as parent; what is put there is
    not serialized. *)
Theorem api_text_parent_refuted : exists d0 cs d,
  doc_new = Val d0 /\ api_doc d0 cs = Val d /\ wf (doc_arena d) /\ children (doc_arena d) 3 = [4] /\
  to_body_html d = Some "t".
Proof.
  eexists _, [CreateText "t"; CreateElement "b"; AppendChild 2 3; AppendChild 3 4], _.
  split; [vm_compute; reflexivity|]. split; [vm_compute; reflexivity|].
  split; [apply wf_check_sound; vm_compute; reflexivity|]. vm_compute. auto.
Qed.
Print Assumptions api_text_parent_refuted.
