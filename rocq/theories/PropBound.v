(** C68: a browser's page does not accumulate nodes. *)
From Verif Require Import Base Arena Matching Chawathe Dom Browser HtmlDiff ArenaProofs ArenaOps DomTree ApplyProofs BuildProofs BrowserProofs FrameProofs HashProofs InstanceProofs
  BrowserTotal NumberProofs DtreeProofs RoundProofs NestProofs Instances InPlaceSpec PropRoundtrip PropSelf PropBrowser PropClient PropGrow BoundProofs.
Local Open Scope string_scope.

(** Any patches at all, also such that fail half way: a patch can give a node a
    child only at the position it names, never more than one beyond it, and
    created nodes have the children the patch lists.  (lib.rs:673-719
    [insert_at_position] replaces the node it finds at the position.) *)
Theorem browser_children_bounded : forall valid_elem valid_attr parse_template (C : arena dnode) (cb F : nat) (ps : list patch),
  wf C -> cb < length C -> (forall p, p ∈ ps -> roomy valid_elem valid_attr F p) ->
  let C' := fst (fst (b_apply_all valid_elem valid_attr parse_template cb (C, []) ps)) in
  forall j, length (children C' j) <= Nat.max (length (children C j)) F.
Proof.
  intros ve va pt C cb F ps W Hl Hps C' j. apply (apply_all_within ve va pt cb F ps C []); [by split|done|done].
Qed.
Print Assumptions browser_children_bounded.

Section Diff.
  Context {H : Type}.
  Variables (heqb : H -> H -> bool) (hcomb : hkind -> option string -> list H -> H) (h0 : H).
  Variables valid_elem valid_attr : string -> bool.
  Variable parse_template : string -> list htree.

  (** A page whose names are unproblematic in a browser, with body content [ts]. *)
  Definition showable (d : document) (ts : list htree) : Prop :=
    exists b ats, plain_doc d b ats ts /\ (forall h, h ∈ ts -> names_ok valid_elem valid_attr h) /\
      b_okn valid_elem valid_attr "body" ats.

  (** One update.  The browser's element [cb] shows the old page (with any
      number of empty texts left over); in the new page no node has more than
      [F] children.  Then after the patches no node of the browser has more
      children than it had, or than [F]. *)
  Theorem update_children_bounded : forall old new ts us (C : arena dnode) (cb : nat) tag l (F : nat),
    showable old ts -> showable new us -> comparable heqb hcomb h0 old new ->
    (forall j, length (children (doc_arena new) j) <= F) ->
    wf C -> node_kind C cb = Some (NElem tag l) -> shows_list C (map btree ts) (children C cb) ->
    exists ps C' sl,
      diff heqb hcomb h0 old new = Val ps /\
      b_apply_all valid_elem valid_attr parse_template cb (C, []) ps = ((C', sl), Val tt) /\
      wf C' /\ shows_list C' (map btree us) (children C' cb) /\ (exists l', node_kind C' cb = Some (NElem tag l')) /\
      (forall j, length (children C' j) <= Nat.max (length (children C j)) F).
  Proof.
    intros old new ts us C cb tag l F (ob & oats & PO & OKO & _) (nb & nats & PN & OKN & OKB) HC HF W Hk Hs.
    destruct (browser_step heqb hcomb h0 valid_elem valid_attr parse_template old new ob nb oats nats ts us C cb tag l
      PO PN HC OKO OKN OKB W Hk Hs) as (ps & C' & sl & Ed & Ea & W' & Hs' & Hb).
    exists ps, C', sl. split; [done|]. split; [done|]. split; [done|]. split; [done|].
    assert (cb < length C) as Hl.
    { unfold node_kind, data in Hk. destruct (C !! cb) eqn:E; [|done]. by eapply lookup_lt_Some. }
    split.
    - destruct (browser_outside_untouched valid_elem valid_attr parse_template C cb ps W Hl) as (_ & K & _).
      { intros p Hp ->. by specialize (Hb _ Hp). }
      rewrite Ea, Hk in K. cbn [fst kind_tag] in K. destruct (node_kind C' cb) as [[| t' l' | |]|]; try done.
      injection K as ->. by exists l'.
    - assert (forall p, p ∈ ps -> roomy valid_elem valid_attr F p) as HR.
      { destruct (compared_total heqb hcomb h0 old new ob nb oats nats ts us PO PN) as (t & ta & tb & m & CM).
        destruct (HC t ta tb m CM) as [NC SF].
        eapply (diff_roomy heqb hcomb h0 valid_elem valid_attr old new ob nb oats nats ts us t ta tb m F ps); try done.
        destruct (diff_run_on heqb hcomb h0 old new ob nb oats nats ts us PO PN no_parser t ta tb m CM NC SF
          (plain_silent heqb hcomb h0 old new ob nb oats nats ts us t ta tb m PO PN CM NC) (doc_arena old) ob)
          as (ps' & D' & sl' & Ed' & _ & _ & _ & Hlen & _).
        - apply PO.
        - eexists _, _. unfold node_kind. by rewrite (pd_data _ _ _ _ PO).
        - apply holds_shows_list, PO.
        - rewrite Ed in Ed'. by injection Ed' as <-. }
      pose proof (browser_children_bounded valid_elem valid_attr parse_template C cb F ps W Hl HR) as B. by rewrite Ea in B.
  Qed.

  (** A session: the server sends the difference from each page to the next,
      the browser applies it. *)
  Fixpoint session (cb : nat) (C : arena dnode) (old : document) (pages : list document) : option (arena dnode) :=
    match pages with
    | [] => Some C
    | new :: rest =>
        match diff heqb hcomb h0 old new with
        | Val ps =>
            match b_apply_all valid_elem valid_attr parse_template cb (C, []) ps with
            | ((C', _), Val _) => session cb C' new rest
            | _ => None
            end
        | _ => None
        end
    end.

  (** However many pages follow one another: at the end the browser shows the
      last one, and no node has more children than at the start, or than the
      widest node of these pages.  What is left over from earlier updates (empty
      texts) is reused. *)
  Theorem session_children_bounded : forall pages old ts (C : arena dnode) (cb : nat) tag l (F : nat),
    (forall d, d ∈ old :: pages -> (exists us, showable d us) /\ forall j, length (children (doc_arena d) j) <= F) ->
    (forall k d d', (old :: pages) !! k = Some d -> pages !! k = Some d' -> comparable heqb hcomb h0 d d') ->
    showable old ts -> wf C -> node_kind C cb = Some (NElem tag l) -> shows_list C (map btree ts) (children C cb) ->
    exists C' last us,
      session cb C old pages = Some C' /\ List.last (old :: pages) old = last /\ showable last us /\
      wf C' /\ shows_list C' (map btree us) (children C' cb) /\
      serialize_inner_html C' cb = to_body_html last /\
      (forall j, length (children C' j) <= Nat.max (length (children C j)) F).
  Proof.
    induction pages as [|new rest IH]; intros old ts C cb tag l F HP HC SO W Hk Hs.
    - exists C, old, ts. split; [done|]. split; [done|]. split; [done|]. split; [done|]. split; [done|]. split; [|lia].
      destruct SO as (b & ats & P & OK & _). unfold to_body_html. rewrite (pd_body _ _ _ _ P).
      rewrite (shows_body_html _ _ cb W Hs), (ser_ts_btree _ _ ts OK).
      by rewrite (serialize_inner_holds _ ts b (pd_wf _ _ _ _ P) (pd_holds _ _ _ _ P)).
    - destruct (HP new) as [[us SN] HF]; [right; left|].
      destruct (update_children_bounded old new ts us C cb tag l F SO SN (HC 0 old new eq_refl eq_refl) HF W Hk Hs)
        as (ps & C1 & sl & Ed & Ea & W1 & Hs1 & [l1 Hk1] & B1).
      destruct (IH new us C1 cb tag l1 F) as (C' & la & vs & E1 & E2 & E3 & E4 & E5 & E6 & E7); [| |done|done|done|done|].
      + intros d Hd. apply HP. by right.
      + intros k d d' H1 H2. by apply (HC (S k)).
      + exists C', la, vs. cbn [session]. rewrite Ed, Ea. split; [done|]. split; [|split; [done|]].
        { rewrite <- E2. clear. cbn [List.last]. destruct rest as [|d rest]; [done|]. revert d. induction rest as [|e rest IH]; intros d; [done|].
          cbn [List.last] in *. apply IH. }
        split; [done|]. split; [done|]. split; [done|]. intros j. specialize (B1 j). specialize (E7 j). lia.
  Qed.
End Diff.
Print Assumptions update_children_bounded.
Print Assumptions session_children_bounded.

(** ** Examples *)

(** An item comes and goes. *)
Definition bd_long : list htree := [el "h1" [tx "T"]; el "ul" [el "li" [tx "a"]; el "li" [tx "b"]; el "li" [tx "c"]]].
Definition bd_short : list htree := [el "h1" [tx "T"]; el "ul" [el "li" [tx "a"]; el "li" [tx "b"]]].

Lemma bd_showable us : us = bd_long \/ us = bd_short ->
  showable ex_name ex_name (mk_doc [] us) us /\ forall j, length (children (doc_arena (mk_doc [] us)) j) <= 3.
Proof.
  intros Hu. split.
  - exists 2, []. split; [apply mk_doc_plain; destruct Hu as [->| ->]; solve_plain|]. split.
    + apply names_okb_list. by destruct Hu as [->| ->]; vm_compute.
    + split; [by split|]. split; [intros q Hq; by apply elem_of_nil in Hq|constructor].
  - intros j. do 13 (destruct j as [|j]; [destruct Hu as [->| ->]; vm_compute; lia|]). destruct Hu as [->| ->]; vm_compute; lia.
Qed.

Lemma bd_comparable us vs : us = bd_long \/ us = bd_short -> vs = bd_long \/ vs = bd_short ->
  comparable phash_eqb PH PH0 (mk_doc [] us) (mk_doc [] vs).
Proof.
  intros Hu Hv t ta tb m CM.
  destruct (bd_showable us Hu) as [(ob & oats & PO & _) _]. destruct (bd_showable vs Hv) as [(nb & nats & PN & _) _]. split.
  - by apply (compared_faithful phash_eqb PH PH0 _ _ _ _ _ _ _ _ PO PN t ta tb m phash_collision_free).
  - eapply swap_check_sound; [|exact CM]. destruct Hu as [->| ->], Hv as [->| ->]; vm_compute; reflexivity.
Qed.

(** Twelve updates later the list has three children, as in the page. *)
Definition bd_pages (n : nat) : list document := concat (repeat [mk_doc [] bd_short; mk_doc [] bd_long] n).
Example session_example :
  let long := mk_doc [] bd_long in
  exists C', session phash_eqb PH PH0 ex_name ex_name no_parser 2 (doc_arena long) long (bd_pages 6) = Some C' /\
    serialize_inner_html C' 2 = Some "<h1>T</h1><ul><li>a</li><li>b</li><li>c</li></ul>" /\
    (forall j, length (children C' j) <= 3).
Proof.
  intros long.
  assert (forall d, d ∈ long :: bd_pages 6 -> exists us, d = mk_doc [] us /\ (us = bd_long \/ us = bd_short)) as HP.
  { intros d Hd. unfold bd_pages in Hd. cbn [repeat concat app] in Hd.
    repeat (apply elem_of_cons in Hd as [->|Hd]; [eauto|]). by apply elem_of_nil in Hd. }
  destruct (session_children_bounded phash_eqb PH PH0 ex_name ex_name no_parser (bd_pages 6) long bd_long (doc_arena long) 2 "body" [] 3)
    as (C' & la & us & E & EL & _ & _ & _ & EH & B).
  - intros d Hd. destruct (HP d Hd) as (us & -> & Hu). destruct (bd_showable us Hu) as [H1 H2]. split; [by exists us|exact H2].
  - intros k d d' H1 H2. apply elem_of_list_lookup_2 in H1, H2. destruct (HP d H1) as (us & -> & Hu).
    destruct (HP d') as (vs & -> & Hv); [by right|]. by apply bd_comparable.
  - apply bd_showable. by left.
  - apply mk_doc_ok.
  - vm_compute. reflexivity.
  - apply holds_shows_list. vm_compute. repeat (constructor; repeat split).
  - exists C'. split; [exact E|]. split.
    + rewrite EH, <- EL. vm_compute. reflexivity.
    + intros j. specialize (B j). destruct (bd_showable bd_long (or_introl eq_refl)) as [_ HW]. specialize (HW j). fold long in HW. lia.
Qed.

(** Not so in the native document (dom.rs:742-780): the first update leaves an
    empty text at the end of the list, the second inserts before it, the third
    leaves another one.  Each round trip adds a node to the list; the HTML does
    not show it. *)
Definition native_step (c : document) (u : document * document) : document :=
  match pdiff (fst u) (snd u) with Val ps => fst (apply_patches no_parser c ps) | _ => c end.
Definition native_rounds (n : nat) : document :=
  fold_left native_step (concat (repeat [(mk_doc [] bd_long, mk_doc [] bd_short); (mk_doc [] bd_short, mk_doc [] bd_long)] n))
    (mk_doc [] bd_long).

Theorem native_children_bounded_refuted : exists old new c c' ps j,
  pdiff old new = Val ps /\ apply_patches no_parser c ps = (c', Val tt) /\
  to_body_html c = to_body_html old /\ to_body_html c' = to_body_html new /\
  (forall k, length (children (doc_arena old) k) <= 3 /\ length (children (doc_arena new) k) <= 3) /\
  length (children (doc_arena c') j) > Nat.max (length (children (doc_arena c) j)) 3.
Proof.
  exists (mk_doc [] bd_short), (mk_doc [] bd_long), (native_step (mk_doc [] bd_long) (mk_doc [] bd_long, mk_doc [] bd_short)).
  destruct (pdiff (mk_doc [] bd_short) (mk_doc [] bd_long)) as [ps| | |] eqn:Ed; [|vm_compute in Ed; discriminate..].
  exists (native_rounds 1), ps, 5. split; [reflexivity|]. split; [vm_compute in Ed; injection Ed as <-; vm_compute; reflexivity|].
  split; [vm_compute; reflexivity|]. split; [vm_compute; reflexivity|]. split.
  - intros k. split; apply bd_showable; auto.
  - vm_compute. lia.
Qed.
Print Assumptions native_children_bounded_refuted.

Example native_rounds_example :
  map (fun n => length (children (doc_arena (native_rounds n)) 5)) [0; 1; 2; 3; 6] = [3; 4; 5; 6; 9] /\
  to_body_html (native_rounds 6) = Some "<h1>T</h1><ul><li>a</li><li>b</li><li>c</li></ul>".
Proof. vm_compute. split; reflexivity. Qed.
