(** C78, continued: the run recorded in a browser is the run of the patches there, what
    [compare_traces] compares, and the document that apply.rs looks at. *)
From Verif Require Import Base Arena Matching Chawathe Dom HtmlDiff Browser Sink Fuzz
  ApplyProofs Instances PropAlike PropApply PropFrame PropFuzz.
Local Open Scope string_scope.

(** A recorded browser run: it begins with the page as it is and no slots.  A step is
    fine exactly if the patches up to it all are; it shows the page after them.  From
    the first error on every step shows the page the error left, the first one with
    the error's text, the others with a fixed one. *)
Theorem browser_trace_is_application : forall show ve va pt (a : arena dnode) (b : nat) ps t,
  browser_capture show ve va pt a b ps = Val t ->
  wrapped a b = Some (tr_initial t) /\ length (tr_steps t) = length ps /\
  forall i s, tr_steps t !! i = Some s ->
    (forall x, s = StepOk x ->
       exists st, ran (b_apply_patch ve va pt b) (a, []) (firstn (S i) ps) st /\ wrapped (fst st) b = Some x) /\
    (forall m x, s = StepFailed m x ->
       exists k st p st' e, k <= i /\ ran (b_apply_patch ve va pt b) (a, []) (firstn k ps) st /\ ps !! k = Some p /\
         b_apply_patch ve va pt b st p = (st', Fail e) /\ wrapped (fst st') b = Some x /\
         m = (if Nat.eqb k i then show e else "skipped due to previous error")).
Proof.
  intros show ve va pt a b ps t E. unfold browser_capture in E.
  destruct (wrapped a b) as [w|] eqn:Ew; [|done].
  destruct (record _ _ _ _ _) as [l| | |] eqn:El; cbn [obind] in E; try done. injection E as <-. cbn [tr_initial tr_steps].
  apply record_right in El as [Hl Hs]. split; [done|]. split; [done|].
  intros i s Hi. specialize (Hs i s Hi). split.
  - intros x ->. exact Hs.
  - intros m x ->. exact Hs.
Qed.
Print Assumptions browser_trace_is_application.

(** Two runs pass the comparison exactly if they begin with the same tree, have the
    same number of steps and every two steps are both fine with the same tree or both
    errors with the same text. *)
Theorem traces_same_exact : forall n b : trace, same_traces n b = true <->
  tr_initial n = tr_initial b /\ length (tr_steps n) = length (tr_steps b) /\
  forall i s s', tr_steps n !! i = Some s -> tr_steps b !! i = Some s' ->
    (exists x, s = StepOk x /\ s' = StepOk x) \/ (exists m x y, s = StepFailed m x /\ s' = StepFailed m y).
Proof.
  intros [x l] [y l']. unfold same_traces. cbn [tr_initial tr_steps]. rewrite andb_true_iff, trees_equal.
  assert (forall s s', same_step s s' = true <->
    (exists x, s = StepOk x /\ s' = StepOk x) \/ (exists m x y, s = StepFailed m x /\ s' = StepFailed m y)) as HS.
  { intros [u|m u] [v|m' v]; cbn [same_step]; split; try done.
    - intros H. apply trees_equal in H as ->. left. eauto.
    - intros [(z & E1 & E2)|(m & z & w & E1 & E2)]; [|done]. apply trees_equal. congruence.
    - intros [(z & E1 & E2)|(m1 & z & w & E1 & E2)]; done.
    - intros [(z & E1 & E2)|(m1 & z & w & E1 & E2)]; done.
    - intros H. apply String.eqb_eq in H as ->. right. eauto.
    - intros [(z & E1 & E2)|(m1 & z & w & E1 & E2)]; [done|]. apply String.eqb_eq. congruence. }
  enough (list_same same_step l l' = true <-> length l = length l' /\
    forall i s s', l !! i = Some s -> l' !! i = Some s' -> same_step s s' = true) as HL.
  { rewrite HL. split; intros (H1 & H2 & H3); (split; [done|]; split; [done|]); intros i s s' E1 E2; apply HS; eauto. }
  clear HS. revert l'. induction l as [|s l IH]; intros [|s' l']; cbn [list_same length]; try (split; [discriminate|intros [H _]; discriminate H]).
  - split; [|reflexivity]. intros _. split; [reflexivity|]. intros i u v H. rewrite lookup_nil in H. discriminate H.
  - rewrite andb_true_iff, IH. split.
    + intros (H1 & H2 & H3). split; [lia|]. intros [|i] u v; cbn; [by intros [= <-] [= <-]|eauto].
    + intros [H2 H3]. split; [by apply (H3 0)|]. split; [lia|]. intros i u v E1 E2. by apply (H3 (S i)).
Qed.
Print Assumptions traces_same_exact.

(** So the trees after an error are never compared. *)
Theorem failed_trees_unseen : forall x m u v l,
  same_traces (mkTrace x (l ++ [StepFailed m u])) (mkTrace x (l ++ [StepFailed m v])) = true.
Proof.
  intros x m u v l. apply traces_same_exact. cbn [tr_initial tr_steps]. split; [done|].
  rewrite !app_length. split; [done|]. intros i s s' E1 E2.
  destruct (decide (i < length l)) as [H|H].
  - rewrite lookup_app_l in E1, E2 by done. rewrite E1 in E2. injection E2 as <-.
    destruct s as [z|m' z]; [left|right]; eauto 6.
  - rewrite lookup_app_r in E1, E2 by lia. destruct (i - length l) as [|k]; cbn in E1, E2; [|done].
    injection E1 as <-. injection E2 as <-. right. eauto 6.
Qed.
Print Assumptions failed_trees_unseen.

(** The document whose body apply.rs serializes after a run without errors is the one
    that [apply_patches] leaves, with its root and its doctype. *)
Theorem captured_is_applied : forall show parse (d d' : document) ps t,
  capture show parse d ps = Val t -> all_succeeded t = true -> ps <> [] ->
  captured parse d ps = Val d' -> apply_patches parse d ps = (d', Val tt).
Proof.
  intros show parse d d' ps t E Hs Hp Ec.
  destruct (trace_is_application _ _ _ _ _ E) as (_ & _ & _ & _ & Ha & _).
  apply Ha in Hs as [d2 H2]. unfold captured in Ec.
  destruct (init_patch_slots d) as [[d1 sl]| | |] eqn:Ei; cbn [obind] in Ec; try done.
  destruct (apply_all parse (doc_arena d1, sl) ps) as [[a sl'] r] eqn:Er. injection Ec as <-.
  unfold patched_to, apply_patches in H2. unfold apply_patches.
  destruct ps as [|p ps]; [done|]. rewrite Ei in H2 |- *. rewrite Er in H2 |- *.
  destruct r as [[]| | |]; by simplify_eq.
Qed.
Print Assumptions captured_is_applied.

(** ** What a passed run says *)
Section Passed.
  Context {H : Type}.
  Variables (heqb : H -> H -> bool) (hcomb : hkind -> option string -> list H -> H) (h0 : H).

  (** apply_structured.rs passes exactly if there are patches, they can be applied, and
      the two pages then have the same HTML. *)
  Theorem structured_passed : forall parse (old new : document),
    structured_target heqb hcomb h0 parse old new = Val FzPassed <->
    exists ps d x, diff heqb hcomb h0 old new = Val ps /\ apply_patches parse old ps = (d, Val tt) /\
      to_html_without_doctype d = Some x /\ to_html_without_doctype new = Some x.
  Proof using Type.
    intros parse old new. unfold structured_target. split.
    - destruct (diff heqb hcomb h0 old new) as [ps| | |]; try done.
      destruct (apply_patches parse old ps) as [d [[]| | |]] eqn:Ea; try done.
      destruct (to_html_without_doctype d) as [x|] eqn:Ex; [|done].
      destruct (to_html_without_doctype new) as [y|]; [|done].
      destruct (String.eqb_spec x y) as [->|]; [|done]. intros _. exists ps, d, y. done.
    - intros (ps & d & x & -> & -> & -> & ->). by rewrite String.eqb_refl.
  Qed.

  (** If apply.rs passes, there are patches; unless there are none, they can be applied,
      and the two bodies then have the same HTML. *)
  Theorem apply_passed : forall show parse (old new : document),
    apply_target heqb hcomb h0 show parse old new = Val FzPassed ->
    exists ps, diff heqb hcomb h0 old new = Val ps /\
      (ps = [] \/ exists d x, apply_patches parse old ps = (d, Val tt) /\
         to_body_html d = Some x /\ to_body_html new = Some x).
  Proof using Type.
    intros show parse old new. unfold apply_target.
    destruct (diff heqb hcomb h0 old new) as [ps| | |]; try done.
    destruct (capture show parse old ps) as [t| | |] eqn:Et; cbn [obind]; try done.
    destruct (all_succeeded t) eqn:Es; cbn [negb]; [|done].
    destruct (captured parse old ps) as [d| | |] eqn:Ec; cbn [obind]; try done.
    destruct (to_body_html d) as [x|] eqn:Ex; [|done].
    destruct (to_body_html new) as [y|]; [|done].
    destruct (String.eqb_spec x y) as [->|]; [|done]. intros _. exists ps. split; [done|].
    destruct (decide (ps = [])) as [->|Hp]; [by left|]. right. exists d, y.
    split; [|done]. by eapply captured_is_applied.
  Qed.
End Passed.
Print Assumptions structured_passed.
Print Assumptions apply_passed.

(** ** Examples *)
(** A page with [<p>a</p>]; the second patch fails, the third is skipped.  A move from
    slot 0 fails, since the browser has no slot of that number. *)
Example browser_trace_example :
  let run := browser_capture ex_show (fun _ => true) (fun _ => true) (fun _ => []) ex_live ex_live_body in
  let page s := DElem "html" [] [DElem "p" [] [DText s]] in
  run [PSetText [0; 0; 0] "b"; PRemove [0; 7]; PSetText [0; 0; 0] "c"] =
  Val (mkTrace (page "a") [StepOk (page "b"); StepFailed "out of bounds" (page "b");
                           StepFailed "skipped due to previous error" (page "b")]) /\
  run [PMove [0] [0; 0] None] = Val (mkTrace (page "a") [StepFailed "error" (page "a")]).
Proof. by vm_compute. Qed.

(** Failed steps with different trees pass; other texts, or an error against a fine
    step, do not. *)
Example traces_example :
  let n s := mkTrace (DText "a") s in
  same_traces (n [StepOk (DText "b"); StepFailed "e" (DText "b")]) (n [StepOk (DText "b"); StepFailed "e" (DText "c")]) = true /\
  same_traces (n [StepFailed "e" (DText "b")]) (n [StepFailed "f" (DText "b")]) = false /\
  same_traces (n [StepFailed "e" (DText "b")]) (n [StepOk (DText "b")]) = false /\
  same_traces (n [StepOk (DText "b")]) (n []) = false.
Proof. by vm_compute. Qed.

Example captured_example :
  let d := mk_doc [] [el "p" [tx "a"]] in
  let d := mkDoc (doc_arena d) (doc_root d) (Some "html") in
  let ps := [PSetText [0; 0; 0] "b"] in
  exists t d', capture ex_show (fun _ => []) d ps = Val t /\ all_succeeded t = true /\
    captured (fun _ => []) d ps = Val d' /\ doc_doctype d' = Some "html" /\ to_body_html d' = Some "<p>b</p>".
Proof. eexists _, _. repeat split; by vm_compute. Qed.

(** Both targets pass on two small pages that differ. *)
Example passed_example :
  let old := mk_doc [] [el "p" [tx "a"]] in
  let new := mk_doc [] [el "p" [tx "b"]; el "hr" []] in
  structured_target phash_eqb PH PH0 (fun _ => []) old new = Val FzPassed /\
  apply_target phash_eqb PH PH0 ex_show (fun _ => []) old new = Val FzPassed /\
  diff phash_eqb PH PH0 old new <> Val [].
Proof. split; [by vm_compute|]. split; [by vm_compute|]. vm_compute. discriminate. Qed.
