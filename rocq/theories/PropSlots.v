(** Property theorems on slots: C20. *)
From stdpp Require Import list_numbers relations.
From Verif Require Import Base Arena Matching Chawathe Dom HtmlDiff
  ArenaProofs ArenaOps TreeProofs DtreeProofs MatchProofs DomTree FrameProofs ConvProofs RoundProofs AssembleProofs NestProofs DiffTotal SlotProofs
  Instances InstanceProofs HashProofs PropMatch PropRoundtrip PropTotal.

(** ** C20 *)

(** On all well-formed documents: the slots introduced by the patches are
    numbered 1, 2, 3, ... in the order of the patches, each once. *)
Theorem slots_numbered_in_order : forall {H} (heqb : H -> H -> bool) hcomb h0 (old new : document) ps,
  proper old -> proper new -> diff heqb hcomb h0 old new = Val ps ->
  exists k, flat_map introduces ps = seq 1 k.
Proof.
  intros H heqb hcomb h0 old new ps PO PN ED.
  destruct (diff_slots heqb hcomb h0 old new ps PO PN ED) as (ps1 & rs & qs & k & -> & R1 & HR & R2).
  rewrite !flat_map_app, (removes_introduce rs HR).
  destruct (slots_run_le _ _ _ R1) as [_ ->]. destruct (slots_run_le _ _ _ R2) as [_ ->].
  exists (k - 1). by rewrite Nat.sub_diag, !app_nil_r.
Qed.
Print Assumptions slots_numbered_in_order.

(** On all well-formed documents: every path of a patch other than a Remove
    starts with 0 or with a slot introduced by an earlier patch. *)
Theorem slots_before_use : forall {H} (heqb : H -> H -> bool) hcomb h0 (old new : document) ps1 p ps2 q,
  proper old -> proper new -> diff heqb hcomb h0 old new = Val (ps1 ++ p :: ps2) ->
  (forall q', p <> PRemove q') -> q ∈ addresses p ->
  exists h r, q = h :: r /\ (h = 0 \/ h ∈ flat_map introduces ps1).
Proof.
  intros H heqb hcomb h0 old new ps1 p ps2 q PO PN ED NR Hq.
  destruct (diff_slots heqb hcomb h0 old new _ PO PN ED) as (l1 & rs & qs & k & E & R1 & HR & R2).
  apply app_eq_inv in E as [(e & E1 & E2)|(e & E1 & E2)]; [|
    destruct e as [|p' e]].
  - subst ps1. apply app_eq_inv in E2 as [(f & F1 & F2)|(f & F1 & F2)].
    + destruct f as [|p' f].
      * rewrite app_nil_r in F1. cbn [app] in F2. rewrite <- F2 in R2.
        destruct (slots_run_use [] 1 p ps2 1 q R2 Hq) as (h & r & -> & [Hh|Hh]); [|by apply elem_of_nil in Hh].
        exists h, r. split; [done|]. left. lia.
      * injection F2 as <- _. destruct (HR p) as (q' & ->); [|by destruct (NR q')].
        rewrite F1. apply elem_of_app. right. left.
    + rewrite F2 in R2.
      destruct (slots_run_use f 1 p ps2 1 q R2 Hq) as (h & r & -> & Hh).
      exists h, r. split; [done|]. destruct Hh as [Hh|Hh]; [left; lia|right].
      rewrite F1, !flat_map_app, !elem_of_app. by right; right.
  - rewrite app_nil_r in E1. subst ps1. cbn [app] in E2. destruct rs as [|r rs].
    + cbn [app] in E2. rewrite <- E2 in R2.
      destruct (slots_run_use [] 1 p ps2 1 q R2 Hq) as (h & r & -> & [Hh|Hh]); [|by apply elem_of_nil in Hh].
      exists h, r. split; [done|]. left. lia.
    + injection E2 as -> _. destruct (HR r) as (q' & ->); [left|]. by destruct (NR q').
  - injection E2 as <- E2. subst l1.
    destruct (slots_run_use ps1 1 p e k q R1 Hq) as (h & r & -> & Hh).
    exists h, r. split; [done|]. destruct Hh; [left; lia|by right].
Qed.
Print Assumptions slots_before_use.

(** For any list of patches and any document: application succeeds only if
    every path starts with 0 or with a slot introduced before. *)
Theorem applied_slots_known : forall parse (d d' : document) ps1 p ps2 q,
  apply_patches parse d (ps1 ++ p :: ps2) = (d', Val tt) -> q ∈ addresses p ->
  exists h r, q = h :: r /\ (h = 0 \/ h ∈ flat_map introduces ps1).
Proof.
  intros parse d d' ps1 p ps2 q Ha Hq. unfold apply_patches in Ha.
  assert (exists d1 b st, apply_all parse (doc_arena d1, [(0, b)]) (ps1 ++ p :: ps2) = (st, Val tt)) as (d1 & b & st & E).
  { destruct (ps1 ++ p :: ps2) as [|p' l] eqn:El; [by destruct ps1|].
    unfold init_patch_slots in Ha. destruct (ensure_body d) as [[d1 b]| | |]; cbn [obind] in Ha; try done.
    destruct (apply_all parse _ (p' :: l)) as [[a sl] r] eqn:Ea. injection Ha as _ ->. by exists d1, b, (a, sl). }
  destruct (apply_all_known parse ps1 _ st p ps2 q E Hq) as (h & r & -> & Hh).
  exists h, r. split; [done|]. destruct Hh as [(y & Hy)|?]; [left|by right].
  cbn [snd slot_get] in Hy. by destruct (Nat.eqb_spec 0 h).
Qed.
Print Assumptions applied_slots_known.

(** In the domain of the round trip (C01), where no Move puts a node below
    itself, this holds for the Removes as well. *)
Theorem slots_before_use_all : forall {H} (heqb : H -> H -> bool) hcomb h0
    (old new : document) ob nb oats nats ts us ps1 p ps2 q,
  plain_doc old ob oats ts -> plain_doc new nb nats us ->
  (forall t ta tb m, compared heqb hcomb h0 old new t ta tb m ->
     no_collision heqb ta tb /\ swap_free m (init_parents t tb m) (html_edit_script ta tb m)) ->
  diff heqb hcomb h0 old new = Val (ps1 ++ p :: ps2) -> q ∈ addresses p ->
  exists h r, q = h :: r /\ (h = 0 \/ h ∈ flat_map introduces ps1).
Proof.
  intros H heqb hcomb h0 old new ob nb oats nats ts us ps1 p ps2 q PO PN HC ED Hq.
  destruct (diff_roundtrip heqb hcomb h0 no_parser old new ob nb oats nats ts us PO PN HC)
    as (ps & d' & E & Ea & _).
  rewrite ED in E. injection E as <-. by eapply applied_slots_known.
Qed.
Print Assumptions slots_before_use_all.

Local Open Scope string_scope.

(** The documents of [total_old] and [total_new] meet the hypotheses of the
    first two theorems; their patches use slots. *)
Example slots_example :
  proper (mk_doc [] total_old) /\ proper (mk_doc [] total_new) /\
  exists ps, pdiff (mk_doc [] total_old) (mk_doc [] total_new) = Val ps /\
    5 <= length (flat_map introduces ps) /\
    5 <= length (List.filter (fun q => match q with 0 :: _ => false | _ => true end) (flat_map addresses ps)).
Proof.
  split; [apply proper_mk_doc; vm_compute; reflexivity|].
  split; [apply proper_mk_doc; vm_compute; reflexivity|].
  eexists. split; [vm_compute; reflexivity|]. split; vm_compute; lia.
Qed.

(** Without that condition a Remove can address a slot that does not exist:
    an unmatched element that ended up below another unmatched element is
    addressed after that one was cut off, so that its path starts with an index
    instead of a slot number. Then application reports an error. *)
Definition slot_texts (k : string) (n : nat) : list htree :=
  map (fun i => tx (k ++ String (Ascii.ascii_of_nat (97 + i)) "")%string) (seq 0 n).
Definition slot_old : list htree :=
  [el "div" [tx "q"; tx "r"; tx "s"; tx "t";
             el_a "div" [ex_attr "a" ""] [el_a "div" [ex_attr "x" ""] []; el "p" (slot_texts "A" 19);
                                          el "div" [el_a "div" [ex_attr "c" ""] [el "p" (slot_texts "C" 19)]]]];
   el_a "div" [ex_attr "w" ""] [el "div" []; el "div" [el "div" [el "div" [el "div" [el "p" (slot_texts "W" 6); tx "z"]]]]]].
Definition slot_new : list htree :=
  [el_a "div" [ex_attr "c" ""]
     [el_a "div" [ex_attr "a" ""]
        [el_a "div" [ex_attr "x" ""] [el_a "div" [ex_attr "i" ""] [el_a "div" [ex_attr "w" ""] [el "p" (slot_texts "W" 6)]]];
         el "p" (slot_texts "A" 19)];
      el_a "div" [ex_attr "h" ""] [el_a "div" [ex_attr "j" ""] [el_a "div" [ex_attr "k" ""] [el "p" (slot_texts "C" 19); tx "y"]]]]].
Theorem slots_before_use_refuted : exists old new ps k q,
  proper old /\ proper new /\ collision_free phash_eqb PH /\
  pdiff old new = Val ps /\ ps !! k = Some (PRemove (5 :: q)) /\ 5 ∉ flat_map introduces ps /\
  snd (apply_patches no_parser old ps) <> Val tt.
Proof.
  exists (mk_doc [] slot_old), (mk_doc [] slot_new). eexists _, 20, _.
  split; [apply proper_mk_doc; vm_compute; reflexivity|].
  split; [apply proper_mk_doc; vm_compute; reflexivity|].
  split; [exact phash_collision_free|].
  split; [vm_compute; reflexivity|]. split; [vm_compute; reflexivity|]. split.
  - cbn. rewrite !elem_of_cons, elem_of_nil. lia.
  - vm_compute. discriminate.
Qed.
Print Assumptions slots_before_use_refuted.
