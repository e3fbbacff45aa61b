(** C57: whatever bytes an event carries, the browser's page stays in order. *)
From stdpp Require Import list_numbers.
From Verif Require Import Base Arena Dom Server ArenaProofs ArenaOps FrameProofs Instances InstanceProofs PropFrame
  PropRoundtrip Browser BrowserProofs BrowserFrame PropBrowser PropBrowserTotal PropClient Wire LiveClient PropMount.
Local Open Scope string_scope.

Lemma kept_refl d m : kept d d m.
Proof. by split. Qed.

(** What is outside of [m] stays outside. *)
Lemma kept_outside d d' m j : wf (doc_arena d) -> wf (doc_arena d') -> kept d d' m ->
  j < length (doc_arena d) -> ~ above (doc_arena d) m j -> ~ above (doc_arena d') m j.
Proof.
  intros W W' K Hj Hn (l & Hc & Hm). revert j Hj Hn Hc Hm. induction l as [|p l IH]; intros j Hj Hn Hc Hm.
  - destruct Hm as [->|Hm]; [|by apply elem_of_nil in Hm]. apply Hn. by apply above_refl.
  - assert (m <> j) as Hne by (intros ->; apply Hn; by apply above_refl).
    destruct Hm as [?|Hm]; [done|].
    inversion Hc as [|? ? ? Hp Hc']; subst.
    destruct (kp_out _ _ _ K j Hj Hn) as (_ & _ & Ep). rewrite Ep in Hp.
    apply (IH p).
    + by eapply wf_parent_lt.
    + intros Ha. apply Hn. by eapply above_parent.
    + done.
    + apply elem_of_cons in Hm as [->|Hm]; auto.
Qed.

Lemma kept_trans d1 d2 d3 m : wf (doc_arena d1) -> wf (doc_arena d2) ->
  length (doc_arena d1) <= length (doc_arena d2) -> kept d1 d2 m -> kept d2 d3 m -> kept d1 d3 m.
Proof.
  intros W1 W2 L K1 K2. destruct K1 as [r1 t1 p1 o1] eqn:E1, K2 as [r2 t2 p2 o2]. split; try congruence.
  intros j Hj Hn. assert (kept d1 d2 m) as K by done.
  pose proof (kept_outside _ _ _ j W1 W2 K Hj Hn) as Hn'.
  destruct (o1 j Hj Hn) as (A & B & C), (o2 j ltac:(lia) Hn') as (A' & B' & C'). repeat split; congruence.
Qed.

(** Patches that do not remove the mount point itself: [Remove [0]] does, and
    [Remove []] panics (browser_remove_root_refuted, browser_empty_remove_refuted). *)
Definition spares_mount (blob : string) : Prop :=
  forall ps, from_blob blob = Some ps -> PRemove [] ∉ ps /\ PRemove [0] ∉ ps.

Section Events.
  Variables valid_elem valid_attr : string -> bool.
  Variable parse_template : string -> list htree.
  Variable query_selector : document -> string -> option (option nat).
  Notation resolve := (resolve_mount_point query_selector).
  Notation handle := (handle_event valid_elem valid_attr parse_template query_selector).
  Notation receive := (on_event valid_elem valid_attr parse_template query_selector).

  (** Any bytes at all: handling ends with success or an error; the document stays
      well formed; if the bytes are no patches, or there is no mount point, it is an
      error and nothing changes; else nothing outside of the mount point changes. *)
  Theorem any_patches_event : forall sel fresh c r blob c' res,
    wf (doc_arena c) -> (forall m, resolve c sel = Val m -> m < length (doc_arena c)) -> spares_mount blob ->
    handle sel fresh c (WPatches r blob) = (c', res) ->
    (res = Val tt \/ exists e, res = Fail e) /\
    wf (doc_arena c') /\ length (doc_arena c) <= length (doc_arena c') /\
    (from_blob blob = None \/ (forall m, resolve c sel <> Val m) -> c' = c /\ exists e, res = Fail e) /\
    (forall m, resolve c sel = Val m -> kept c c' m).
  Proof.
    intros sel fresh c r blob c' res W Hm Hs. cbn [handle_event]. unfold apply_patches_postcard_on.
    destruct (from_blob blob) as [ps|] eqn:Eb.
    2:{ cbn. intros [= <- <-]. split; [right; by eexists|]. split; [done|]. split; [done|].
        split; [intros _; split; [done|by eexists]|]. intros m _. apply kept_refl. }
    unfold apply_patches_on. destruct (resolve c sel) as [m|e| |] eqn:Er.
    - destruct (Hs ps Eb) as [H1 H2].
      pose proof (browser_total valid_elem valid_attr parse_template (doc_arena c) m ps W (Hm m eq_refl) H1) as HT.
      pose proof (browser_outside_untouched valid_elem valid_attr parse_template (doc_arena c) m ps W (Hm m eq_refl)) as HO.
      destruct (b_apply_all valid_elem valid_attr parse_template m (doc_arena c, []) ps) as [[a sl] q]. cbn [fst snd] in *.
      destruct HT as (Hq & Wa & La & _). destruct HO as (O1 & O2 & O3).
      { intros p Hp ->. done. }
      intros [= <- <-]. split; [|split; [done|split; [done|split]]].
      + destruct Hq as [->|(e & ->)]; [by left|right; by eexists].
      + intros [?|HN]; [done|]. by destruct (HN m).
      + intros m' [= <-]. by split.
    - cbn. intros [= <- <-]. split; [right; by eexists|]. split; [done|]. split; [done|].
      split; [intros _; split; [done|by eexists]|]. done.
    - exfalso. unfold resolve_mount_point in Er. by repeat case_match.
    - exfalso. unfold resolve_mount_point in Er. by repeat case_match.
  Qed.

  (** The same for any stream of such events on the body: through all of them the page
      stays well formed, the body stays the body, and nothing outside of it changes. *)
  Corollary any_stream : forall fresh (blobs : list (string * string)) c b,
    wf (doc_arena c) -> body c = Some b -> (forall r blob, (r, blob) ∈ blobs -> spares_mount blob) ->
    let c' := fold_left (receive "body" fresh) (map (fun x => WPatches (fst x) (snd x)) blobs) c in
    wf (doc_arena c') /\ body c' = Some b /\ kept c c' b.
  Proof.
    intros fresh blobs. induction blobs as [|[r blob] l IH]; intros c b W Hb Hs; cbn [map fold_left fst snd].
    { split; [done|]. split; [done|]. apply kept_refl. }
    destruct (handle "body" fresh c (WPatches r blob)) as [c1 res] eqn:E1.
    assert (resolve c "body" = Val b) as Er by (unfold resolve_mount_point; cbn; by rewrite Hb).
    destruct (any_patches_event "body" fresh c r blob c1 res W) as (_ & W1 & L1 & _ & K1); [| |exact E1|].
    { intros m. rewrite Er. intros [= <-]. unfold body, body_in in Hb. apply find_some in Hb as [Hb _].
      apply elem_of_list_In in Hb. by eapply wf_child_lt. }
    { apply (Hs r). by left. }
    specialize (K1 b Er). pose proof (kept_body c c1 b W K1 Hb) as Hb1.
    assert (receive "body" fresh c (WPatches r blob) = c1) as -> by (unfold on_event; by rewrite E1).
    destruct (IH c1 b W1 Hb1) as (W2 & Hb2 & K2). { intros r' blob' Hi. apply (Hs r'). by right. }
    split; [done|]. split; [done|]. by apply (kept_trans c c1).
  Qed.
End Events.
Print Assumptions any_patches_event.
Print Assumptions any_stream.

(** Bytes that are no patches, patches that fail half way, patches that work: the page
    shows what the applied ones did, the header outside of the mount point is as before. *)
Example any_stream_example :
  let c := mk_doc [] [el "p" [tx "a"]] in
  let bad := String "255" (String "1" EmptyString) in
  let half := to_blob [PRemove [0; 0]; PRemove [0; 5]] in
  let good := to_blob [PInsertText [0; 0] "new" None] in
  let r := fold_left (on_event ex_name ex_name no_parser by_id "body" c)
    (map (fun x => WPatches (fst x) (snd x)) [("/", bad); ("/", half); ("/", good)]) c in
  wf (doc_arena c) /\ body c = Some 2 /\
  (forall r' blob, (r', blob) ∈ [("/", bad); ("/", half); ("/", good)] -> spares_mount blob) /\
  from_blob bad = None /\ (exists ps, from_blob half = Some ps) /\
  to_body_html r = Some "new".
Proof.
  cbn zeta. split; [apply mk_doc_ok|]. split; [done|]. split.
  { intros r' blob Hi ps Ep.
    repeat (apply elem_of_cons in Hi as [Hi|Hi]; [injection Hi as -> ->; vm_compute in Ep; try done; injection Ep as <-;
      split; intros Hx; repeat (apply elem_of_cons in Hx as [Hx|Hx]; [done|]); by apply elem_of_nil in Hx|]).
    by apply elem_of_nil in Hi. }
  vm_compute. split; [reflexivity|]. split; [eexists; reflexivity|]. reflexivity.
Qed.
