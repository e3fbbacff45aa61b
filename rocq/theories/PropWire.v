(** Property theorems on the wire format: C50. *)
From stdpp Require Import list_numbers.
From Coq Require Import NArith Ascii.
From Verif Require Import Base Arena Dom Server Browser Wire WireProofs.
Local Open Scope string_scope.

(** Numbers are [u32] and lengths [usize] in the program, so [fits_patch] is no
    restriction there.  Every list of patches is read back in the browser as it
    was written by the server; only attribute names with an empty prefix come
    back without prefix. *)
Theorem blob_roundtrip : forall ps, seq fits_patch ps -> from_blob (to_blob ps) = Some (map npatch ps).
Proof.
  intros ps Hp. unfold from_blob. rewrite <- (scat_nil (to_blob ps)). by rewrite blob_reads.
Qed.
Print Assumptions blob_roundtrip.

(** Bytes that follow do not matter. *)
Theorem blob_trailing : forall ps r, seq fits_patch ps -> from_blob (to_blob ps ++ r) = Some (map npatch ps).
Proof. intros ps r Hp. unfold from_blob. by rewrite blob_reads. Qed.
Print Assumptions blob_trailing.

(** No name has an empty prefix. *)
Definition prefixed (q : qname) : Prop := q_prefix q <> Some "".
Fixpoint content_names (c : icontent) : list qname :=
  match c with
  | ICElem _ ats cs => (map fst ats ++ flat_map content_names cs)%list
  | _ => []
  end.
Definition patch_names (p : patch) : list qname :=
  match p with
  | PInsertElement _ _ ats cs _ => (map fst ats ++ flat_map content_names cs)%list
  | PSetAttribute _ q _ | PRemoveAttribute _ q => [q]
  | PUpdateProps _ l => flat_map (fun c => match pc_name c with PAttr q => [q] | PText => [] end) l
  | _ => []
  end.

Lemma nq_id q : prefixed q -> nq q = q.
Proof. unfold prefixed, nq. destruct q as [[[|]|] n l]; cbn; [by intros []|done|done]. Qed.
Lemma nattrs_id l : Forall prefixed (map fst l) -> map nattr l = l.
Proof.
  induction l as [|[q v] l IH]; [done|]. cbn. intros HF. inversion HF; subst. unfold nattr at 1. cbn.
  by rewrite nq_id, IH.
Qed.
Lemma ncontent_id c : Forall prefixed (content_names c) -> ncontent c = c.
Proof.
  induction c as [s|s|tag ats cs IH] using content_ind'; [done|done|]. cbn [content_names ncontent].
  intros [H1 H2]%Forall_app. f_equal; [by apply nattrs_id|].
  induction cs as [|c cs IHcs]; [done|]. cbn in H2. apply Forall_app in H2 as [H2 H3]. cbn.
  rewrite IH; [|left|done]. f_equal. apply IHcs; [|done]. intros x Hx. apply IH. by right.
Qed.
Lemma ncontents_id cs : Forall prefixed (flat_map content_names cs) -> map ncontent cs = cs.
Proof.
  induction cs as [|c cs IH]; [done|]. cbn. intros [H1 H2]%Forall_app. by rewrite ncontent_id, IH.
Qed.
Lemma npatch_id p : Forall prefixed (patch_names p) -> npatch p = p.
Proof.
  destruct p as [| | | | |? q ?|? q| |? l|]; cbn [patch_names npatch]; try done.
  - intros [H1 H2]%Forall_app. by rewrite nattrs_id, ncontents_id.
  - intros HF. inversion HF; subst. by rewrite nq_id.
  - intros HF. inversion HF; subst. by rewrite nq_id.
  - intros HF. f_equal. induction l as [|[[|q] v] l IH]; [done| |]; cbn in *.
    + by rewrite IH.
    + inversion HF; subst. unfold nchange at 1. cbn. by rewrite nq_id, IH.
Qed.

Theorem blob_roundtrip_exact : forall ps, seq fits_patch ps ->
  (forall p, p ∈ ps -> Forall prefixed (patch_names p)) -> from_blob (to_blob ps) = Some ps.
Proof.
  intros ps Hp Hn. rewrite blob_roundtrip by done. f_equal. induction ps as [|p ps IH]; [done|]. cbn.
  rewrite npatch_id by (apply Hn; left). f_equal. apply IH.
  - destruct Hp as [H1 H2]. inversion H2; subst. split; [|done]. unfold usize in *. cbn [length] in H1. lia.
  - intros p' Hp'. apply Hn. by right.
Qed.
Print Assumptions blob_roundtrip_exact.

(** Two lists of patches are not confused, even if other bytes follow. *)
Theorem blob_injective : forall ps ps' r r', seq fits_patch ps -> seq fits_patch ps' ->
  to_blob ps ++ r = to_blob ps' ++ r' -> map npatch ps = map npatch ps' /\ r = r'.
Proof.
  intros ps ps' r r' H1 H2 E. pose proof (blob_reads ps r H1) as E1. rewrite E, blob_reads in E1 by done.
  by injection E1 as -> ->.
Qed.
Print Assumptions blob_injective.

(** Bytes that were cut off somewhere are not read as anything. *)
Theorem blob_truncated : forall ps s t, seq fits_patch ps -> to_blob ps = s ++ t -> t <> "" -> from_blob s = None.
Proof.
  intros ps s t Hp E Ht. unfold from_blob. destruct (dec_list dec_patch s) as [[x r]|] eqn:Ed; [|done].
  pose proof (list_stable _ patch_stable s x r t Ed) as E1. rewrite <- E in E1.
  rewrite <- (scat_nil (to_blob ps)), blob_reads in E1 by done. injection E1 as <- E2.
  destruct r as [|c r]; [|done]. cbn in E2. congruence.
Qed.
Print Assumptions blob_truncated.

(** Events. *)
Definition fits_event (e : wire_event) : Prop :=
  match e with WReload => True | WPatches r b => short r /\ short b | WHeadChanged r => short r end.
Theorem event_roundtrip : forall e, fits_event e -> from_postcard (to_postcard e) = Some e.
Proof.
  intros e He. unfold from_postcard. rewrite <- (scat_nil (to_postcard e)).
  destruct e as [|r b|r]; cbn [to_postcard fits_event] in *.
  - by tag.
  - destruct He. tag. step. rewrite str_reads by done. step. by rewrite str_reads by done.
  - tag. unfold pmap. step. by rewrite str_reads by done.
Qed.
Print Assumptions event_roundtrip.

(** ** Effect in the browser *)

(** hotmeal-wasm/src/lib.rs:143-149 [apply_patches_postcard]; 172-181 for a
    mount point. *)
Definition b_apply_blob (valid_elem valid_attr : string -> bool) (parse_template : string -> list htree)
    (root : nat) (a : arena dnode) (blob : string) : presult :=
  match from_blob blob with
  | Some ps => b_apply_all valid_elem valid_attr parse_template root (a, []) ps
  | None => ((a, []), Fail DomException)
  end.

Section Effect.
  Variables valid_elem valid_attr : string -> bool.
  Variable parse_template : string -> list htree.

  Lemma bname_nq q : bname (nq q) = bname q.
  Proof. destruct q as [[[|]|] n l]; done. Qed.

  Lemma b_set_attrs_n ns new : forall l, b_set_attrs valid_attr ns l (map nattr new) = b_set_attrs valid_attr ns l new.
  Proof.
    induction new as [|[q v] new IH]; intros l; [done|]. cbn. rewrite bname_nq. destruct (b_set_attr _ _ _ _ _); [apply IH|done].
  Qed.
  Lemma b_ser_n c : b_ser_content (ncontent c) = b_ser_content c.
  Proof.
    induction c as [s|s|tag ats cs IH] using content_ind'; [done|done|]. cbn [ncontent b_ser_content].
    assert (map b_ser_attr (map nattr ats) = map b_ser_attr ats) as ->.
    { rewrite map_map. apply map_ext. intros [q v]. unfold b_ser_attr, nattr. cbn. by rewrite bname_nq. }
    assert (map b_ser_content (map ncontent cs) = map b_ser_content cs) as ->; [|done].
    rewrite map_map. apply map_ext_in. intros c Hc. apply IH. by apply elem_of_list_In.
  Qed.
  Lemma b_create_n c : forall a, b_create valid_elem valid_attr parse_template a (ncontent c) =
    b_create valid_elem valid_attr parse_template a c.
  Proof.
    induction c as [s|s|tag ats cs IH] using content_ind'; intros a; [done|done|].
    pose proof (b_ser_n (ICElem tag ats cs)) as Es. cbn [ncontent] in *.
    cbn [b_create]. unfold b_via_html, b_create_element. rewrite b_set_attrs_n, Es.
    destruct (valid_elem tag); [|done]. destruct (b_set_attrs valid_attr NsHtml [] ats) as [l|]; [|done].
    destruct (new_node a (mkD (NElem (lower tag) l) NsHtml)) as [a1 n]. f_equal.
    clear Es a. revert a1. induction cs as [|c cs IHcs]; intros a; [done|]. cbn [map].
    rewrite IH by left. destruct (b_create _ _ _ a c) as [[a' i]| | |]; cbn; [|done|done|done].
    destruct (dom_append a' n i) as [a''| | |]; cbn; [|done|done|done]. apply IHcs. intros x Hx. apply IH. by right.
  Qed.

  (** Names in UpdateProps are the one place where the browser looks at empty
      prefixes. *)
  Definition plain_update (p : patch) : Prop :=
    match p with PUpdateProps _ _ => Forall prefixed (patch_names p) | _ => True end.

  Lemma b_apply_n root st p : plain_update p ->
    b_apply_patch valid_elem valid_attr parse_template root st (npatch p) =
    b_apply_patch valid_elem valid_attr parse_template root st p.
  Proof.
    intros Hp. destruct p as [at_ tag ats cs slot| | | | |q name v|q name| |q l|]; try done.
    - destruct st as [a sl]. cbn [npatch b_apply_patch]. unfold b_insert. destruct (Nat.ltb (length at_) 2); [done|].
      unfold with_found. destruct (find_node _ _ _ _); [|done|done|done].
      destruct (node_kind _ _) as [[]|]; try done.
      by rewrite (b_create_n (ICElem tag ats cs)).
    - destruct st as [a sl]. cbn [npatch b_apply_patch]. by rewrite bname_nq.
    - destruct st as [a sl]. cbn [npatch b_apply_patch]. by rewrite bname_nq.
    - by rewrite npatch_id.
  Qed.

  (** What the browser does with the bytes is what it would do with the patches
      themselves: same document, same error. *)
  Theorem blob_effect : forall root a ps, seq fits_patch ps -> (forall p, p ∈ ps -> plain_update p) ->
    b_apply_blob valid_elem valid_attr parse_template root a (to_blob ps) =
    b_apply_all valid_elem valid_attr parse_template root (a, []) ps.
  Proof.
    intros root a ps Hp Hu. unfold b_apply_blob. rewrite blob_roundtrip by done.
    generalize (a, @nil (nat * nat)). clear Hp. induction ps as [|p ps IH]; intros st; [done|]. cbn [map b_apply_all].
    rewrite b_apply_n by (apply Hu; left).
    destruct (b_apply_patch _ _ _ root st p) as [st' [[]| | |]]; [|done|done|done].
    apply IH. intros p' Hp'. apply Hu. by right.
  Qed.
End Effect.
Print Assumptions blob_effect.

(** ** Examples *)

Definition ex_wire : list patch :=
  [PInsertElement [0; 300; 1] "p" [(mkQ None "" "class", "a b"); (mkQ (Some "xlink") "ns" "href", "#")]
     [ICElem "b" [] [ICText "hi"; ICComment ""]; ICText ""] (Some 2);
   PInsertText [1; 0] "x" None; PInsertComment [0; 2] "c" (Some 4000); PRemove [2]; PSetText [0; 1; 2; 3] "t";
   PSetAttribute [0] (mkQ (Some "") "" "id") "v"; PRemoveAttribute [0; 0] (mkQ None "" "id");
   PMove [3] [0; 1] (Some 4); PUpdateProps [0; 128] [mkPC (PAttr (mkQ None "" "k")) None; mkPC PText (Some "s")];
   POpaqueChanged [0; 127] "<i></i>"].


Ltac solve_fits := repeat first [split|constructor|progress unfold fits_path, fits_attr, fits_qname, fits_change, short|vm_compute; reflexivity].

(** Every kind of patch; a name with empty prefix loses it. *)
Example blob_roundtrip_example :
  seq fits_patch ex_wire /\ String.length (to_blob ex_wire) = 137 /\
  from_blob (to_blob ex_wire) = Some (map npatch ex_wire) /\
  map npatch ex_wire <> ex_wire /\ (forall p, p ∈ ex_wire -> plain_update p).
Proof.
  split; [solve_fits|]. split; [vm_compute; reflexivity|]. split; [vm_compute; reflexivity|].
  split; [vm_compute; discriminate|].
  intros p Hp. repeat (apply elem_of_cons in Hp as [->|Hp]; [cbn; try done|]); [|by apply elem_of_nil in Hp].
  repeat constructor; discriminate.
Qed.

(** Bytes: one patch, variant 4, path of three numbers, a text. *)
Example blob_bytes_example :
  map N_of_ascii (list_ascii_of_string (to_blob [PSetText [0; 1; 300] "ab"])) =
    [1; 4; 3; 0; 1; 172; 2; 2; 97; 98]%N.
Proof. vm_compute. reflexivity. Qed.

Example blob_roundtrip_exact_example :
  let ps := [PSetAttribute [0; 1] (mkQ (Some "xml") "" "lang") "en"; PRemove [0; 2]] in
  seq fits_patch ps /\ (forall p, p ∈ ps -> Forall prefixed (patch_names p)) /\ from_blob (to_blob ps) = Some ps.
Proof.
  intros ps. split; [solve_fits|]. split; [|vm_compute; reflexivity].
  intros p Hp. repeat (apply elem_of_cons in Hp as [->|Hp]; [cbn; repeat constructor; discriminate|]). by apply elem_of_nil in Hp.
Qed.

Example event_roundtrip_example :
  let e := to_wire (EvPatches "/a" ex_wire) in
  fits_event e /\ from_postcard (to_postcard e) = Some e /\ from_postcard (to_postcard WReload) = Some WReload.
Proof. split; [vm_compute; by split|]. split; vm_compute; reflexivity. Qed.

Example blob_truncated_example :
  to_blob ex_wire = substring 0 100 (to_blob ex_wire) ++ substring 100 37 (to_blob ex_wire) /\
  from_blob (substring 0 100 (to_blob ex_wire)) = None.
Proof. split; vm_compute; reflexivity. Qed.

(** An UpdateProps with an empty prefix sets [":k"] when applied directly and
    ["k"] when it was sent. *)
Theorem blob_effect_empty_prefix_refuted : exists a ps,
  seq fits_patch ps /\
  fst (fst (b_apply_blob (fun _ => true) (fun _ => true) (fun _ => []) 0 a (to_blob ps))) <>
  fst (fst (b_apply_all (fun _ => true) (fun _ => true) (fun _ => []) 0 (a, []) ps)).
Proof.
  exists [mkNode (mkD (NElem "body" []) NsHtml) None []], [PUpdateProps [0] [mkPC (PAttr (mkQ (Some "") "" "k")) (Some "v")]].
  split; [solve_fits|]. vm_compute. discriminate.
Qed.
Print Assumptions blob_effect_empty_prefix_refuted.
