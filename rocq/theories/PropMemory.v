(** C83: how much a list of patches can make a native document, or a page, grow. *)
From Verif Require Import Base Arena Matching Chawathe Dom Browser HtmlDiff Server Wire ArenaProofs ArenaOps DomTree ApplyProofs BuildProofs BrowserProofs HashProofs InstanceProofs
  BrowserTotal NumberProofs DtreeProofs RoundProofs NestProofs WireProofs WfCheck Instances InPlaceSpec PropRoundtrip PropSelf PropBrowser PropClient PropGrow BoundProofs PropBound PropWire.
Local Open Scope string_scope.

(** ** Any patches *)

(** The nodes that a patch lists. *)
Fixpoint content_nodes (c : icontent) : nat :=
  match c with ICElem _ _ cs => S (list_sum (map content_nodes cs)) | _ => 1 end.
Definition listed (parse_inner : string -> list htree) (p : patch) : nat :=
  match p with
  | PInsertElement _ t l cs _ => content_nodes (ICElem t l cs)
  | PInsertText _ _ _ | PInsertComment _ _ _ => 1
  | POpaqueChanged _ s => list_sum (map hsize (parse_inner s))
  | _ => 0
  end.
(** The empty texts that take the place of a node taken away, or fill up the
    children before a position. *)
Definition filler (p : patch) : nat :=
  match p with
  | PInsertElement at_ _ _ _ _ | PInsertText at_ _ _ | PInsertComment at_ _ _ => List.last at_ 0
  | PMove from to _ => (if Nat.ltb 1 (length from) then 1 else 0) + List.last to 0
  | PRemove _ => 1
  | _ => 0
  end.

Definition sum (l : list nat) : nat := list_sum l.

Lemma length_new' {D} (a : arena D) d a' i : new_node a d = (a', i) -> length a' = S (length a).
Proof. intros E. pose proof (length_new a d) as L. by rewrite E in L. Qed.

Lemma length_append {D} (a a' : arena D) p c : append a p c = Val a' -> length a' = length a.
Proof.
  unfold append. destruct (Nat.eqb p c); [done|]. destruct (is_ancestor a c p) as [[|]|]; try done.
  intros [= <-]. by rewrite length_set_parent, length_set_children, length_detach.
Qed.
Lemma length_insert_before {D} (a a' : arena D) s c : insert_before a s c = Val a' -> length a' = length a.
Proof.
  unfold insert_before. destruct (Nat.eqb s c); [done|]. cbv zeta. destruct (parent (detach a c) s) as [p|].
  - destruct (Nat.eqb p c); [done|]. intros [= <-]. by rewrite length_set_parent, length_set_children, length_detach.
  - intros [= <-]. by rewrite length_detach.
Qed.
Lemma length_fill {D} (d : D) p n : forall a a', fill_gaps n d a p = Val a' -> length a' = length a + n.
Proof.
  induction n as [|n IH]; intros a a'; cbn [fill_gaps]; [intros [= <-]; lia|].
  destruct (new_node a d) as [a1 i] eqn:En. destruct (append a1 p i) as [a2| | |] eqn:Ea; cbn [obind]; try done.
  intros E. rewrite (IH _ _ E), (length_append _ _ _ _ Ea), (length_new' _ _ _ _ En). lia.
Qed.
Lemma length_create c : forall a a' i, create_content a c = Val (a', i) -> length a' = length a + content_nodes c.
Proof.
  revert c. fix IH 1. intros [t l cs|s|s] a a' i; cbn [create_content content_nodes].
  - destruct (new_node a (elem t l NsHtml)) as [a1 n] eqn:En. apply length_new' in En.
    match goal with |- (let! _ := ?g a1 cs in _) = _ -> _ => set (go := g) end.
    assert (forall cs a a', go a cs = Val a' -> length a' = length a + list_sum (map content_nodes cs)) as Hgo.
    { clear - IH. fix IHl 1. intros [|c cs] a a'; cbn [go map list_sum fold_right].
      - intros [= <-]. lia.
      - destruct (create_content a c) as [[a1 i]| | |] eqn:Ec; cbn [obind]; try done.
        destruct (append a1 n i) as [a2| | |] eqn:Ea; cbn [obind]; try done.
        intros E. apply IHl in E. apply IH in Ec. apply length_append in Ea. unfold list_sum in E |- *. lia. }
    destruct (go a1 cs) as [a2| | |] eqn:Eg; cbn [obind]; try done. intros [= <- _]. apply Hgo in Eg. lia.
  - intros E. injection E as E _. subst a'. rewrite app_length. cbn. lia.
  - intros E. injection E as E _. subst a'. rewrite app_length. cbn. lia.
Qed.
Lemma length_contents n cs : forall a a', create_contents a n cs = Val a' -> length a' = length a + list_sum (map content_nodes cs).
Proof.
  induction cs as [|c cs IH]; intros a a'; cbn [create_contents map list_sum fold_right]; [intros [= <-]; lia|].
  destruct (create_content a c) as [[a1 i]| | |] eqn:Ec; cbn [obind]; try done.
  destruct (append a1 n i) as [a2| | |] eqn:Ea; cbn [obind]; try done.
  intros E. apply IH in E. apply length_create in Ec. apply length_append in Ea. unfold list_sum in E |- *. lia.
Qed.
Lemma length_clone h : forall a a' i, clone_tree a h = Val (a', i) -> length a' = length a + hsize h.
Proof.
  revert h. fix IH 1. intros [t ns l cs|s|s] a a' i; cbn [clone_tree hsize].
  - destruct (new_node a (mkD (NElem t l) ns)) as [a1 n] eqn:En. apply length_new' in En.
    match goal with |- (let! _ := ?g a1 cs in _) = _ -> _ => set (go := g) end.
    assert (forall cs a a', go a cs = Val a' -> length a' = length a + list_sum (map hsize cs)) as Hgo.
    { clear - IH. fix IHl 1. intros [|c cs] a a'; cbn [go map list_sum fold_right].
      - intros [= <-]. lia.
      - destruct (clone_tree a c) as [[a1 i]| | |] eqn:Ec; cbn [obind]; try done.
        destruct (append a1 n i) as [a2| | |] eqn:Ea; cbn [obind]; try done.
        intros E. apply IHl in E. apply IH in Ec. apply length_append in Ea. unfold list_sum in E |- *. lia. }
    destruct (go a1 cs) as [a2| | |] eqn:Eg; cbn [obind]; try done. intros [= <- _]. apply Hgo in Eg. lia.
  - intros E. injection E as E _. subst a'. rewrite app_length. cbn. lia.
  - intros E. injection E as E _. subst a'. rewrite app_length. cbn. lia.
Qed.
Lemma length_clones n hs : forall a a', clone_under a n hs = Val a' -> length a' = length a + list_sum (map hsize hs).
Proof.
  induction hs as [|h hs IH]; intros a a'; cbn [clone_under map list_sum fold_right]; [intros [= <-]; lia|].
  destruct (clone_tree a h) as [[a1 i]| | |] eqn:Ec; cbn [obind]; try done.
  destruct (append a1 n i) as [a2| | |] eqn:Ea; cbn [obind]; try done.
  intros E. apply IH in E. apply length_clone in Ec. apply length_append in Ea. unfold list_sum in E |- *. lia.
Qed.
Lemma length_detach_all l : forall a, length (detach_all a l) = length a.
Proof. unfold detach_all. induction l as [|i l IH]; intros a; [done|]. cbn [fold_left]. by rewrite IH, length_detach. Qed.
Lemma length_set_kind a i k : length (set_kind a i k) = length a.
Proof. unfold set_kind. destruct (data a i); [apply length_set_data|done]. Qed.
Lemma length_replace a n a' : replace_by_empty a n = Val a' -> length a' = S (length a).
Proof.
  unfold replace_by_empty. destruct (new_node a (text_node "")) as [a1 e] eqn:En.
  destruct (insert_before a1 n e) as [a2| | |] eqn:Ei; cbn [obind]; try done. intros [= <-].
  by rewrite length_detach, (length_insert_before _ _ _ _ Ei), (length_new' _ _ _ _ En).
Qed.
Lemma length_insert_at_position a p pos n a' : insert_at_position a p pos n = Val a' ->
  length a' = length a + (pos - length (children a p)).
Proof.
  unfold insert_at_position. destruct (fill_gaps _ _ _ _) as [a1| | |] eqn:Ef; cbn [obind]; try done. apply length_fill in Ef.
  destruct (children a1 p !! pos); intros E; [apply length_insert_before in E|apply length_append in E]; lia.
Qed.
Lemma length_insert_at a sl at_ n slot :
  length a <= length (fst (fst (insert_at a sl at_ n slot))) <= length a + List.last at_ 0.
Proof.
  unfold insert_at. destruct (get_slot_parent a sl at_) as [[p pos]| | |] eqn:Eg; cbn [fst]; try lia.
  assert (pos = List.last at_ 0) as Hp.
  { unfold get_slot_parent in Eg. destruct (Nat.ltb _ _); [done|]. destruct (navigate_slot_path _ _ _); cbn [obind] in Eg; try done.
    by injection Eg as _ <-. }
  assert (forall a1 sl1, length a1 = length a ->
    length a <= length (fst (fst (plift (a1, sl1) (insert_at_position a1 p pos n)))) <= length a + pos) as K.
  { intros a1 sl1 L. destruct (insert_at_position a1 p pos n) as [a2| | |] eqn:Ei; cbn [plift fst]; try lia.
    apply length_insert_at_position in Ei. lia. }
  rewrite <- Hp. destruct slot as [k|]; [|by apply K].
  destruct (children a p !! pos); apply K; [apply length_detach|done].
Qed.

Section Native.
  Variable parse_inner : string -> list htree.

  Lemma length_with st q f n k : (forall i, n <= length (fst (fst (f i))) <= k) -> n <= length (fst st) <= k ->
    n <= length (fst (fst (with_node st q f))) <= k.
  Proof using Type. intros Hf Hs. unfold with_node. destruct (navigate_slot_path _ _ _); cbn [fst]; by try apply Hf. Qed.

  Lemma patch_memory st p : length (fst st) <= length (fst (fst (apply_patch parse_inner st p)))
    <= length (fst st) + listed parse_inner p + filler p.
  Proof using Type.
    destruct st as [a sl]. cbn [fst]. destruct p as [q t l cs o|q s o|q s o|q|q s|q n v|q n|q q' o|q ch|q s]; cbn [apply_patch listed filler content_nodes].
    - destruct (new_node a (elem t l NsHtml)) as [a1 n] eqn:En. apply length_new' in En.
      destruct (create_contents a1 n cs) as [a2| | |] eqn:Ec; cbn [fst]; try lia. apply length_contents in Ec.
      pose proof (length_insert_at a2 sl q n o). lia.
    - destruct (new_node a (text_node s)) as [a1 n] eqn:En. apply length_new' in En. pose proof (length_insert_at a1 sl q n o). lia.
    - destruct (new_node a (comment_node s)) as [a1 n] eqn:En. apply length_new' in En. pose proof (length_insert_at a1 sl q n o). lia.
    - apply length_with; [|cbn [fst]; lia]. intros i. destruct (replace_by_empty a i) as [a1| | |] eqn:E; cbn [plift fst]; try lia.
      apply length_replace in E. lia.
    - apply length_with; [|cbn [fst]; lia]. intros i. destruct (node_kind a i) as [[| | |]|]; cbn [fst]; rewrite ?length_set_kind; lia.
    - apply length_with; [|cbn [fst]; lia]. intros i. destruct (node_kind a i) as [[| | |]|]; cbn [fst]; rewrite ?length_set_kind; lia.
    - apply length_with; [|cbn [fst]; lia]. intros i. destruct (node_kind a i) as [[| | |]|]; cbn [fst]; rewrite ?length_set_kind; lia.
    - destruct (Nat.ltb 1 (length q)); (apply length_with; [|cbn [fst]; lia]); intros i; cbv beta iota zeta.
      + destruct (replace_by_empty a i) as [a1| | |] eqn:E; cbn [fst]; try lia. apply length_replace in E.
        pose proof (length_insert_at a1 sl q' i o). unfold pstate in *. lia.
      + pose proof (length_insert_at (detach a i) sl q' i o) as K. rewrite length_detach in K. unfold pstate in *. lia.
    - apply length_with; [|cbn [fst]; lia]. intros i. cbv zeta.
      destruct (node_kind a i) as [[| | |]|]; cbn [fst]; rewrite ?length_set_kind; try lia;
        destruct (find _ ch) as [c|]; cbn [fst]; try lia; destruct (pc_value c); cbn [fst]; rewrite ?length_set_kind; lia.
    - apply length_with; [|cbn [fst]; lia]. intros i. cbv zeta.
      destruct (clone_under _ i _) as [a1| | |] eqn:E; cbn [plift fst]; rewrite ?length_detach_all; try lia.
      apply length_clones in E. rewrite length_detach_all in E. lia.
  Qed.

  (** Any patches on any document, also such that fail half way: the arena
      never shrinks, as nodes are only ever taken out of the tree, and grows by
      no more than the nodes that the patches list and the empty texts that
      they need. *)
  Theorem native_memory : forall st ps,
    length (fst st) <= length (fst (fst (apply_all parse_inner st ps)))
    <= length (fst st) + sum (map (listed parse_inner) ps) + sum (map filler ps).
  Proof using Type.
    intros st ps. revert st. induction ps as [|p ps IH]; intros st; cbn [apply_all map sum list_sum fold_right fst]; [lia|].
    pose proof (patch_memory st p) as K. unfold sum, list_sum in *. destruct (apply_patch parse_inner st p) as [st' [[]| | |]]; cbn [fst] in *; try lia.
    specialize (IH st'). lia.
  Qed.
End Native.
Print Assumptions native_memory.

(** ** Patches of a diff *)

Section Diff.
  Context {H : Type}.
  Variables (heqb : H -> H -> bool) (hcomb : hkind -> option string -> list H -> H) (h0 : H).
  Variables valid_elem valid_attr : string -> bool.

  (** The patches of a diff need at most [F] empty texts each, where no node of
      the new page has more than [F] children.  So a document that takes part
      in a session grows with every update, but by no more than this. *)
  Theorem update_memory : forall parse_inner old new ts us (F : nat) ps st,
    showable valid_elem valid_attr old ts -> showable valid_elem valid_attr new us -> comparable heqb hcomb h0 old new ->
    (forall j, length (children (doc_arena new) j) <= F) ->
    diff heqb hcomb h0 old new = Val ps ->
    length (fst (fst (apply_all parse_inner st ps))) <=
      length (fst st) + sum (map (listed parse_inner) ps) + F * length ps.
  Proof using Type.
    intros pi old new ts us F ps st (ob & oats & PO & OKO & _) (nb & nats & PN & OKN & OKB) HC HF Ed.
    assert (forall p, p ∈ ps -> roomy valid_elem valid_attr F p) as HR.
    { destruct (compared_total heqb hcomb h0 old new ob nb oats nats ts us PO PN) as (t & ta & tb & m & CM).
      destruct (HC t ta tb m CM) as [NC SF].
      eapply (diff_roomy heqb hcomb h0 valid_elem valid_attr old new ob nb oats nats ts us t ta tb m F ps); try done.
      destruct (diff_run_on heqb hcomb h0 old new ob nb oats nats ts us PO PN no_parser t ta tb m CM NC SF
        (plain_silent heqb hcomb h0 old new ob nb oats nats ts us t ta tb m PO PN CM NC) (doc_arena old) ob)
        as (ps' & D' & sl' & Ed' & _ & _ & _ & Hlen & _).
      - apply PO.
      - eexists _, _. unfold node_kind. by rewrite (pd_data _ _ _ _ PO).
      - apply holds_shows_list, PO.
      - rewrite Ed in Ed'. by injection Ed' as <-. }
    assert (1 <= F) as H1.
    { pose proof (pd_body _ _ _ _ PN) as Eb. unfold body, body_in in Eb. apply find_some in Eb as [Eb _].
      specialize (HF (doc_root new)). destruct (children (doc_arena new) (doc_root new)); [done|cbn [length] in HF; lia]. }
    assert (sum (map filler ps) <= F * length ps) as HS.
    { clear - HR H1. induction ps as [|p ps IH]; [cbn; lia|]. cbn [map sum list_sum fold_right length].
      assert (filler p <= F) as Hp.
      { specialize (HR p ltac:(left)). destruct p; cbn [roomy filler] in *; try lia. destruct (Nat.ltb _ _); lia. }
      specialize (IH ltac:(intros x Hx; apply HR; by right)). unfold sum, list_sum in IH. lia. }
    pose proof (native_memory pi st ps). lia.
  Qed.
End Diff.
Print Assumptions update_memory.

(** ** Patches made up *)

Definition far_patch (n : nat) : patch := PInsertText [0; n] "" None.

Lemma varint_size fuel : forall n, String.length (enc_varint fuel n) <= fuel.
Proof. induction fuel as [|f IH]; intros n; cbn [enc_varint]; [done|]. destruct (N.ltb n 128); cbn [String.length]; [lia|]. specialize (IH (n / 128)%N). lia. Qed.

(** A list of one patch, of eleven bytes, can make a document of any number of nodes, up to
    2^32, and so can it make a page: [insert_at_position] fills up the children
    before the position it is given (dom.rs:759-768, lib.rs:697-708). *)
Theorem far_patch_fills : forall parse_inner valid_elem valid_attr parse_template (a : arena dnode) b n t l,
  wf a -> node_kind a b = Some (NElem t l) -> length (children a b) <= n -> (N.of_nat n < 2 ^ 32)%N ->
  String.length (to_blob [far_patch n]) <= 11 /\ from_blob (to_blob [far_patch n]) = Some [far_patch n] /\
  (exists a', apply_patch parse_inner (a, [(0, b)]) (far_patch n) = ((a', [(0, b)]), Val tt) /\
     wf a' /\ length (children a' b) = S n /\ length a' = length a + S (n - length (children a b))) /\
  (exists a', b_apply_patch valid_elem valid_attr parse_template b (a, []) (far_patch n) = ((a', []), Val tt) /\
     wf a' /\ length (children a' b) = S n).
Proof.
  intros pi ve va pt a b n t l W Hk Hn Hu.
  assert (b < length a) as Hb.
  { unfold node_kind, data in Hk. destruct (a !! b) eqn:E; [|done]. by eapply lookup_lt_Some. }
  split.
  { unfold to_blob, enc_list at 1. cbn [length map cat]. unfold far_patch. cbn [enc_patch]. unfold enc_path, enc_list. cbn [length map cat]. rewrite !scat_length.
    pose proof (varint_size 5 (N.of_nat n)) as V. unfold enc_u32 at 2. change (enc_tag 1) with (String (ascii_of_N 1) "").
    cbn in V |- *. lia. }
  split.
  { apply blob_roundtrip_exact.
    - split; [unfold usize; cbn [length]; lia|]. constructor; [|constructor]. unfold far_patch. cbn [fits_patch].
      split; [|split; [unfold short, usize; cbn [String.length]; lia|exact I]].
      split; [unfold usize; cbn [length]; lia|]. constructor; [unfold u32; lia|]. constructor; [exact Hu|constructor].
    - intros p ->%elem_of_list_singleton. constructor. }
  destruct (new_node_full a (text_node "") W) as (W1 & L1 & P1 & C1 & D1 & Cj & Pj & Dj).
  set (a1 := fst (new_node a (text_node ""))) in *.
  destruct (fill_gaps_full (text_node "") (n - length (children a b)) a1 b W1 ltac:(lia)) as (a2 & E2 & [W2 L2 D2 N2 C2 P2]).
  assert (length (children a2 b) = n) as Hlen.
  { rewrite C2, Nat.eqb_refl, app_length, seq_length, Cj. lia. }
  destruct (append_full a2 b (length a)) as (a3 & E3 & [W3 L3 D3 C3 P3]); [done|lia|lia| | |].
  { rewrite P2, L1. destruct (Nat.leb_spec (S (length a)) (length a)); [lia|]. done. }
  { apply leaf_not_above; [done| |lia]. rewrite C2. destruct (Nat.eqb_spec (length a) b); [lia|]. done. }
  assert (length (children a3 b) = S n) as H3.
  { rewrite C3, Nat.eqb_refl, app_length, Hlen. cbn. lia. }
  split.
  - exists a3. unfold far_patch. cbn [apply_patch]. change (new_node a (text_node "")) with (a1, length a).
    unfold insert_at, get_slot_parent. cbn [length Nat.ltb Nat.leb removelast navigate_slot_path slot_get Nat.eqb navigate obind List.last].
    unfold insert_at_position. rewrite Cj, E2. cbn [obind]. rewrite lookup_ge_None_2 by lia. rewrite E3. cbn [plift snd].
    split; [done|]. split; [done|]. split; [done|]. lia.
  - exists a3. unfold far_patch. cbn [b_apply_patch]. unfold b_insert. cbn [length Nat.ltb Nat.leb removelast fst snd List.last].
    unfold with_found. cbn [fst snd]. unfold find_node. unfold get_slot_root. cbn [Nat.eqb slot_get navigate obind]. rewrite Hk.
    change (new_node a (text_node "")) with (a1, length a). unfold b_insert_at_position.
    rewrite lookup_ge_None_2 by (rewrite Cj; lia). rewrite Cj, E2. unfold dom_append. rewrite E3. done.
Qed.
Print Assumptions far_patch_fills.

(** The growth is not bounded by any factor of the patch's bytes. *)
Theorem memory_by_bytes_refuted : forall factor : nat, (N.of_nat factor <= 390000000)%N -> exists p st st',
  apply_patch no_parser st p = (st', Val tt) /\ from_blob (to_blob [p]) = Some [p] /\
  factor * String.length (to_blob [p]) < length (fst st') - length (fst st).
Proof.
  intros k Hk. set (d := mk_doc [] [el "p" [tx "a"]]).
  destruct (far_patch_fills no_parser (fun _ => true) (fun _ => true) no_parser (doc_arena d) 2 (k * 11 + 1) "body" [])
    as (Hs & Hr & (a' & E & _ & _ & L) & _).
  - apply wf_check_sound. by vm_compute.
  - by vm_compute.
  - assert (length (children (doc_arena d) 2) = 1) as -> by (by vm_compute). lia.
  - lia.
  - eexists _, _, _. split; [exact E|]. split; [exact Hr|]. cbn [fst]. rewrite L. assert (length (children (doc_arena d) 2) = 1) as -> by (by vm_compute). nia.
Qed.
Print Assumptions memory_by_bytes_refuted.

Definition memory_native (old new : document) : nat * nat * nat * nat :=
  match pdiff old new with
  | Val ps => let st := (doc_arena old, [(0, 2)]) in
      (length (fst st), length (fst (fst (apply_all no_parser st ps))), sum (map (listed no_parser) ps), length ps)
  | _ => (0, 0, 0, 0)
  end.
(** Two updates of C68's list: a line taken away leaves two empty texts, a line
    added adds two nodes.  The bound of [update_memory] is the length, the
    nodes listed, and three (the longest list) for each patch. *)
Example memory_example :
  let long := mk_doc [] bd_long in let short := mk_doc [] bd_short in
  showable ex_name ex_name long bd_long /\ showable ex_name ex_name short bd_short /\
  comparable phash_eqb PH PH0 long short /\ comparable phash_eqb PH PH0 short long /\
  memory_native long short = (12, 14, 0, 2) /\ memory_native short long = (10, 12, 2, 2) /\
  (let st := (doc_arena short, [(0, 2)]) in
   let p := PInsertElement [0; 5] "p" [] [ICText "x"; ICElem "b" [] [ICText "y"]] None in
   listed no_parser p = 4 /\ filler p = 5 /\
   length (fst (fst (apply_all no_parser st [p; PRemove [0; 5]; PMove [0; 1; 1] [0; 0] (Some 1); PRemove [9; 0]]))) = 10 + (4 + 3) + 1 + 1).
Proof.
  split; [apply bd_showable; by left|]. split; [apply bd_showable; by right|].
  split; [apply bd_comparable; [by left|by right]|]. split; [apply bd_comparable; [by right|by left]|].
  split; [by vm_compute|]. split; [by vm_compute|]. split; [by vm_compute|]. split; by vm_compute.
Qed.
Example far_patch_example : exists a',
  apply_patch no_parser (doc_arena (mk_doc [] bd_short), [(0, 2)]) (far_patch 1000) = ((a', [(0, 2)]), Val tt) /\
  length (children a' 2) = 1001 /\ String.length (to_blob [far_patch 1000]) = 8.
Proof. eexists. split; [by vm_compute|]. split; by vm_compute. Qed.
