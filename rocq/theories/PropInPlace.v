(** Property theorems C63: bodies of one shape, differing in texts, attributes
    and the content of opaque elements. *)
From stdpp Require Import list_numbers.
From Verif Require Import Base Arena Matching Chawathe Dom HtmlDiff ArenaProofs ArenaOps TreeProofs DomTree BuildProofs
  DiffTotal HashProofs AssembleProofs SelfProofs RestyleProofs AttrProofs WfCheck Instances InstanceProofs InPlaceSpec InPlaceProofs
  PropMatch PropRoundtrip PropTotal PropSelf PropRestyle PropOpaque.
Local Open Scope string_scope.

(** C63: the patches are one per edit - none inserts, moves or removes anything -
    and applying them gives the new body.  All nodes of the old document but
    those inside opaque elements keep their children. *)
Theorem edits_in_place : forall {H} (heqb : H -> H -> bool) hcomb h0 parse
    (old new : document) ob nb tag ns oats ts ts',
  (forall h, heqb h h = true) -> collision_free heqb hcomb ->
  wf (doc_arena old) -> wf (doc_arena new) -> body old = Some ob -> body new = Some nb ->
  holds (doc_arena old) (HElem tag ns oats ts) ob ->
  holds (doc_arena new) (HElem tag ns [] ts') nb ->
  NoDup (map fst oats) -> marked oats = false ->
  let h := HElem tag ns [] ts in
  let h' := HElem tag ns [] ts' in
  Forall2 edited ts ts' ->
  forallb (lacks tag ns) ts' = true ->
  no_twins h h' = true -> half_kept h h' ->
  (forall p u v, In (p, (u, v)) (spots [0] h h') -> hopaque u = true ->
     if same_bare u v then hchildren u = hchildren v else parse (ser_ts false (hchildren v)) = hchildren v) ->
  exists ps es d,
    diff heqb hcomb h0 old new = Val ps /\
    es ≡ₚ flat_map edits (spots [0] h h') /\ Forall2 edit_for es ps /\
    apply_patches parse old ps = (d, Val tt) /\
    wf (doc_arena d) /\ body d = Some ob /\
    holds (doc_arena d) (HElem tag ns oats ts') ob /\
    to_body_html d = to_body_html new /\
    doc_root d = doc_root old /\ doc_doctype d = doc_doctype old /\
    (forall i, i < length (doc_arena old) ->
       children (doc_arena d) i = children (doc_arena old) i \/
       exists t l n, data (doc_arena old) i = Some (mkD (NElem t l) n) /\ marked l = true) /\
    (forall i, i < length (doc_arena old) -> ~ above (doc_arena old) ob i ->
       data (doc_arena d) i = data (doc_arena old) i /\ children (doc_arena d) i = children (doc_arena old) i).
Proof.
  intros H heqb hcomb h0 parse old new ob nb tag ns oats ts ts' HR CF WO WN BO BN HO HN N1 M1 h h' HF HLK HTW HK HP.
  apply holds_elem in HO as [DO HO]. apply holds_elem in HN as [DN HN].
  destruct (diff_in_place heqb hcomb h0 HR CF new (doc_arena old) ob nb tag ns oats ts ts') as (ps & es & ED & PE & HU); try done.
  destruct (apply_in_place parse old ob tag ns oats ts ts' es ps) as (d & EA & WD & BD & Hh & _ & R1 & R2 & R3 & R4); try done.
  { intros p u v Hin. apply (HP p u v). by apply elem_of_list_In. }
  exists ps, es, d. split; [unfold diff; by rewrite BO, BN|]. split; [done|]. split; [done|]. split; [done|].
  split; [done|]. split; [done|]. split; [done|]. split.
  { unfold to_body_html. rewrite BD, BN. apply holds_elem in Hh as [_ Hh].
    by rewrite (serialize_inner_holds _ ts' ob), (serialize_inner_holds _ ts' nb). }
  split_and!; done.
Qed.
Print Assumptions edits_in_place.

(** ** Texts only *)

(** All texts of a tree, comments included. *)
Fixpoint words (h : htree) : list string :=
  match h with
  | HElem _ _ _ cs => flat_map words cs
  | HText s | HComment s => [s]
  end.

(** Some texts changed; those are not among the texts [O] and [N] of the other
    document.  Elements stay as they are, none is opaque. *)
Inductive reworded (O N : list string) : htree -> htree -> Prop :=
| rw_text s s' : (s <> s' -> ~ In s N /\ ~ In s' O) -> reworded O N (HText s) (HText s')
| rw_comment s s' : (s <> s' -> ~ In s N /\ ~ In s' O) -> reworded O N (HComment s) (HComment s')
| rw_elem tag ns l cs cs' : NoDup (map fst l) -> marked l = false -> Forall2 (reworded O N) cs cs' ->
    reworded O N (HElem tag ns l cs) (HElem tag ns l cs').

(** Path and new text of those that changed. *)
Fixpoint changed_words (p : list nat) (h h' : htree) {struct h} : list (list nat * string) :=
  match h, h' with
  | HText s, HText s' => if string_dec s s' then [] else [(p, s')]
  | HComment s, HComment s' => if string_dec s s' then [] else [(p, s')]
  | HElem _ _ _ cs, HElem _ _ _ cs' =>
      (fix go (k : nat) (cs cs' : list htree) : list (list nat * string) :=
         match cs, cs' with
         | c :: cs1, c' :: cs1' => (changed_words (p ++ [k])%list c c' ++ go (S k) cs1 cs1')%list
         | _, _ => []
         end) 0 cs cs'
  | _, _ => []
  end.

(** Number of nodes below which, and in which, no text changed. *)
Fixpoint same_words (h h' : htree) {struct h} : nat :=
  match h, h' with
  | HElem _ _ _ cs, HElem _ _ _ cs' =>
      (if List.list_eq_dec string_dec (words h) (words h') then 1 else 0) +
      (fix go (cs cs' : list htree) : nat :=
         match cs, cs' with
         | c :: cs1, c' :: cs1' => same_words c c' + go cs1 cs1'
         | _, _ => 0
         end) cs cs'
  | _, _ => if List.list_eq_dec string_dec (words h) (words h') then 1 else 0
  end.

Fixpoint changed_in (p : list nat) (k : nat) (cs cs' : list htree) : list (list nat * string) :=
  match cs, cs' with
  | c :: cs1, c' :: cs1' => (changed_words (p ++ [k])%list c c' ++ changed_in p (S k) cs1 cs1')%list
  | _, _ => []
  end.
Fixpoint same_in (cs cs' : list htree) : nat :=
  match cs, cs' with
  | c :: cs1, c' :: cs1' => same_words c c' + same_in cs1 cs1'
  | _, _ => 0
  end.
Lemma changed_words_elem p tag ns l cs tag' ns' l' cs' :
  changed_words p (HElem tag ns l cs) (HElem tag' ns' l' cs') = changed_in p 0 cs cs'.
Proof.
  cbn [changed_words]. generalize 0. revert cs'. induction cs as [|c cs IH]; intros [|c' cs'] k; try done. cbn [changed_in]. f_equal. apply IH.
Qed.
Lemma same_words_elem tag ns l cs tag' ns' l' cs' :
  same_words (HElem tag ns l cs) (HElem tag' ns' l' cs') =
  (if List.list_eq_dec string_dec (flat_map words cs) (flat_map words cs') then 1 else 0) + same_in cs cs'.
Proof. done. Qed.

Lemma words_bare h : words (bare h) = words h.
Proof.
  induction h as [s|s|tag ns l cs IH] using htree_ind'; [done|done|]. cbn [bare words]. induction cs as [|c cs IHc]; [done|].
  cbn [map flat_map]. rewrite (IH c ltac:(left)), IHc; [done|]. intros d Hd. apply IH. by right.
Qed.

Section Reworded.
  Variables O N : list string.
  Local Notation rw := (reworded O N).

  Lemma reworded_length h : forall h', rw h h' -> length (words h) = length (words h').
  Proof.
    induction h as [s|s|tag ns l cs IH] using htree_ind'; intros h' HR; inversion HR as [| |? ? ? ? cs' _ _ HF]; subst; [done|done|].
    cbn [words]. clear HR. induction HF as [|c c' cs cs' Hc HF IHc]; [done|]. cbn [flat_map]. rewrite !app_length.
    rewrite (IH c ltac:(left) c' Hc), IHc; [done|]. intros d Hd. apply IH. by right.
  Qed.
  Lemma reworded_words h : forall h', rw h h' -> words h = words h' -> bare h = bare h'.
  Proof.
    induction h as [s|s|tag ns l cs IH] using htree_ind'; intros h' HR; inversion HR as [| |? ? ? ? cs' _ _ HF]; subst; cbn [words bare].
    - by intros [= ->].
    - by intros [= ->].
    - intros E. f_equal. clear HR. revert E. induction HF as [|c c' cs cs' Hc HF IHc]; [done|]. cbn [flat_map map]. intros E.
      apply app_inj_1 in E as [E1 E2]; [|by apply reworded_length]. rewrite (IH c ltac:(left) c' Hc E1), IHc; [done| |done].
      intros d Hd. apply IH. by right.
  Qed.
  Lemma reworded_same h h' : rw h h' ->
    same_bare h h' = if List.list_eq_dec string_dec (words h) (words h') then true else false.
  Proof.
    intros HR. destruct (List.list_eq_dec _ _ _) as [E|Hn].
    - apply same_bare_eq. by apply reworded_words.
    - apply Bool.not_true_iff_false. intros E. apply same_bare_eq in E. apply Hn. by rewrite <- words_bare, E, words_bare.
  Qed.
  (** Where texts differ there is one that is gone, and one that has come. *)
  Lemma reworded_differ h : forall h', rw h h' -> words h <> words h' ->
    (exists s, In s (words h) /\ ~ In s N) /\ (exists s, In s (words h') /\ ~ In s O).
  Proof.
    induction h as [s|s|tag ns l cs IH] using htree_ind'; intros h' HR; inversion HR as [? ? Hs|? ? Hs|? ? ? ? cs' _ _ HF]; subst; cbn [words].
    - intros Hn. destruct Hs as [H1 H2]; [congruence|]. split; [exists s|exists s']; (split; [by left|done]).
    - intros Hn. destruct Hs as [H1 H2]; [congruence|]. split; [exists s|exists s']; (split; [by left|done]).
    - clear HR. induction HF as [|c c' cs cs' Hc HF IHc]; [done|]. cbn [flat_map]. intros Hn.
      destruct (List.list_eq_dec string_dec (words c) (words c')) as [E|Hne].
      + destruct IHc as [(s & S1 & S2) (s' & S3 & S4)].
        { intros d Hd. apply IH. by right. } { intros E'. apply Hn. by rewrite E, E'. }
        split; [exists s|exists s']; (split; [apply in_app_iff; by right|done]).
      + destruct (IH c ltac:(left) c' Hc Hne) as [(s & S1 & S2) (s' & S3 & S4)].
        split; [exists s|exists s']; (split; [apply in_app_iff; by left|done]).
  Qed.

  Lemma reworded_opaque h h' : rw h h' -> hopaque h = false /\ hopaque h' = false.
  Proof. destruct 1; done. Qed.

  Lemma reworded_edited h : forall h', rw h h' -> edited h h'.
  Proof.
    induction h as [s|s|tag ns l cs IH] using htree_ind'; intros h' HR; inversion HR as [| |? ? ? ? cs' N1 M1 HF]; subst; [constructor|constructor|].
    apply ed_elem; try done.
    - right. unfold alike_names. rewrite filter_all by (intros q Hq; by apply existsb_qname).
      assert (length (keys l) = length l) as -> by apply map_length. lia.
    - clear HR. induction HF as [|c c' cs cs' Hc HF IHc]; [constructor|]. constructor; [apply IH; [left|done]|].
      apply IHc. intros d Hd. apply IH. by right.
  Qed.

  Definition text_edit (e : list nat * string) : path * edit := (fst e, EText (snd e)).

  Lemma reworded_edits h : forall p h', rw h h' -> flat_map edits (spots p h h') = map text_edit (changed_words p h h').
  Proof.
    induction h as [s|s|tag ns l cs IH] using htree_ind'; intros p h' HR; inversion HR as [| |? ? ? ? cs' N1 M1 HF]; subst.
    - cbn. by destruct (string_dec s s').
    - cbn. by destruct (string_dec s s').
    - rewrite spots_elem, changed_words_elem. change (is_opaque_props l) with (marked l). rewrite M1. cbn [flat_map].
      unfold edits at 1. cbn [own_edits content_edits hopaque]. change (is_opaque_props l) with (marked l). rewrite M1. cbn [andb].
      destruct (attrs_eq_dec l l); [|done]. cbn [app]. clear HR. generalize 0.
      induction HF as [|c c' cs cs' Hc HF IHc]; intros k; [done|]. cbn [spots_in changed_in]. rewrite flat_map_app, map_app. f_equal.
      + apply IH; [left|done].
      + apply IHc. intros d Hd. apply IH. by right.
  Qed.

  Lemma reworded_kept h : forall p h', rw h h' -> length (List.filter kept (spots p h h')) = same_words h h'.
  Proof.
    induction h as [s|s|tag ns l cs IH] using htree_ind'; intros p h' HR; inversion HR as [| |? ? ? ? cs' N1 M1 HF]; subst.
    - cbn [spots List.filter kept hopaque same_words]. rewrite (reworded_same _ _ HR), Bool.orb_false_r. by destruct (List.list_eq_dec _ _ _).
    - cbn [spots List.filter kept hopaque same_words]. rewrite (reworded_same _ _ HR), Bool.orb_false_r. by destruct (List.list_eq_dec _ _ _).
    - rewrite spots_elem, same_words_elem. change (is_opaque_props l) with (marked l). rewrite M1. cbn [List.filter kept hopaque].
      change (is_opaque_props l) with (marked l). rewrite M1, (reworded_same _ _ HR), Bool.orb_false_r. cbn [words].
      assert (length (List.filter kept (spots_in p 0 cs cs')) = same_in cs cs') as E.
      { clear HR. generalize 0. induction HF as [|c c' cs cs' Hc HF IHc]; intros k; [done|]. cbn [spots_in same_in].
        rewrite List.filter_app, app_length. f_equal; [apply IH; [left|done]|]. apply IHc. intros d Hd. apply IH. by right. }
      destruct (List.list_eq_dec _ _ _); cbn [length]; by rewrite E.
  Qed.

  Lemma reworded_hat p : forall h h' u, rw h h' -> hat h p = Some u -> exists v, hat h' p = Some v /\ rw u v.
  Proof.
    induction p as [|k p IH]; intros h h' u HR; cbn [hat]; [intros [= <-]; by exists h'|].
    inversion HR as [| |? ? ? ? cs' N1 M1 HF]; subst; cbn [hchildren]; [done|done|].
    destruct (cs !! k) as [c|] eqn:Ek; [|done]. destruct (Forall2_lookup_l _ _ _ _ _ HF Ek) as (c' & -> & Hc). by apply IH.
  Qed.
  Lemma reworded_hat_r p : forall h h' v, rw h h' -> hat h' p = Some v -> exists u, hat h p = Some u /\ rw u v.
  Proof.
    induction p as [|k p IH]; intros h h' v HR; cbn [hat]; [intros [= <-]; by exists h|].
    inversion HR as [| |? ? ? cs ? N1 M1 HF]; subst; cbn [hchildren]; [done|done|].
    destruct (cs' !! k) as [c|] eqn:Ek; [|done]. destruct (Forall2_lookup_r _ _ _ _ _ HF Ek) as (c' & -> & Hc). by apply IH.
  Qed.
End Reworded.

Lemma hat_words p : forall h u s, hat h p = Some u -> In s (words u) -> In s (words h).
Proof.
  induction p as [|k p IH]; intros h u s; cbn [hat]; [by intros [= <-]|]. destruct (hchildren h !! k) as [c|] eqn:Ek; [|done].
  intros Hu Hs. destruct h as [tag ns l cs|t|t]; cbn [hchildren] in Ek; [|done|done]. cbn [words]. apply in_flat_map. exists c.
  split; [apply elem_of_list_In; by eapply elem_of_list_lookup_2|]. by eapply IH.
Qed.

Lemma facing_hat h : forall h' p q u v, ((p, q), (u, v)) ∈ facing h h' -> hat h p = Some u /\ hat h' q = Some v.
Proof.
  induction h as [s|s|tag ns l cs IH] using htree_ind'; intros h' p q u v.
  1,2: intros Hin; cbn [facing] in Hin; apply elem_of_list_singleton in Hin as [= -> -> -> ->]; done.
  cbn [facing]. intros Hin. apply elem_of_cons in Hin as [[= -> -> -> ->]|Hin]; [done|].
  destruct h' as [tag' ns' l' cs'|s'|s']; [|by apply elem_of_nil in Hin|by apply elem_of_nil in Hin].
  destruct (_ || _); [by apply elem_of_nil in Hin|]. cbn [hat].
  assert (forall cs0 k, (forall c, c ∈ cs0 -> c ∈ cs) ->
    ((p, q), (u, v)) ∈ (fix go (i : nat) (cs : list htree) : list ((path * path) * (htree * htree)) :=
              match cs with
              | [] => []
              | c :: cs1 =>
                  (flat_map (fun jc => if same_label c (snd jc)
                                      then map (fun e => ((i :: fst (fst e), fst jc :: snd (fst e)), snd e)) (facing c (snd jc))
                                      else [])
                    (zip (seq 0 (length cs')) cs') ++ go (S i) cs1)%list
              end) k cs0 ->
    exists i p' j q' c c', p = (k + i) :: p' /\ q = j :: q' /\ cs0 !! i = Some c /\ cs' !! j = Some c' /\ hat c p' = Some u /\ hat c' q' = Some v) as HG.
  { clear Hin. induction cs0 as [|c cs0 IHc]; intros k Hsub Hin; [by apply elem_of_nil in Hin|]. apply elem_of_app in Hin as [Hin|Hin].
    - apply elem_flat_map in Hin as ([j c'] & Hj & Hin). cbn [fst snd] in Hin. destruct (same_label c c'); [|by apply elem_of_nil in Hin].
      apply elem_of_list_In, in_map_iff in Hin as ([[p' q'] [u' v']] & E & Hin). cbn [fst snd] in E. injection E as <- <- -> ->.
      apply elem_of_list_In in Hin. apply IH in Hin as [H1 H2]; [|apply Hsub; left].
      apply elem_of_list_lookup in Hj as (n & Hj). apply lookup_zip_with_Some in Hj as (j' & c2 & E & Hs & Hc). injection E as -> ->.
      apply lookup_seq in Hs as [-> _]. exists 0, p', n, q', c, c2. rewrite Nat.add_0_r. done.
    - apply IHc in Hin as (i & p' & j & q' & d & d' & -> & -> & H1 & H2); [|intros d Hd; apply Hsub; by right].
      exists (S i), p', j, q', d, d'. split; [f_equal; lia|]. done. }
  destruct (HG cs 0 ltac:(done) Hin) as (i & p' & j & q' & c & c' & -> & -> & H1 & H2 & H3 & H4). cbn [hat hchildren Nat.add]. by rewrite H1, H2.
Qed.

Lemma reworded_no_twins h h' : reworded (words h) (words h') h h' -> no_twins h h' = true.
Proof.
  intros HR. unfold no_twins. apply forallb_forall. intros [[p q] [u v]] Hin. apply elem_of_list_In in Hin.
  destruct (decide (p = q)); [done|]. apply facing_hat in Hin as [Hu Hv].
  destruct (reworded_hat _ _ p h h' u HR Hu) as (v1 & Hv1 & R1). destruct (reworded_hat_r _ _ q h h' v HR Hv) as (u2 & Hu2 & R2).
  destruct (reworded_opaque _ _ _ _ R1) as [-> _]. destruct (reworded_opaque _ _ _ _ R2) as [_ ->]. rewrite !Bool.orb_false_r.
  destruct (same_bare u v) eqn:Eb; [|done]. apply same_bare_eq in Eb.
  assert (words u = words v) as Ew by (by rewrite <- words_bare, Eb, words_bare).
  unfold kept_at. rewrite Hu, Hv1, Hu2, Hv. unfold kept. apply Bool.andb_true_iff. split; apply Bool.orb_true_iff; left.
  - apply same_bare_eq. apply (reworded_words _ _ _ _ R1). destruct (List.list_eq_dec string_dec (words u) (words v1)) as [|Hn]; [done|].
    destruct (reworded_differ _ _ _ _ R1 Hn) as [(s & S1 & S2) _]. exfalso. apply S2. rewrite Ew in S1. exact (hat_words q h' v s Hv S1).
  - apply same_bare_eq. apply (reworded_words _ _ _ _ R2). destruct (List.list_eq_dec string_dec (words u2) (words v)) as [|Hn]; [done|].
    destruct (reworded_differ _ _ _ _ R2 Hn) as [_ (s & S1 & S2)]. exfalso. apply S2. rewrite <- Ew in S1. exact (hat_words p h u s Hu S1).
Qed.

(** C63, for changes of texts only, in pages without opaque elements: one
    [SetText] for each text that changed, whatever is around it. *)
Theorem texts_in_place : forall {H} (heqb : H -> H -> bool) hcomb h0 parse
    (old new : document) ob nb tag ns oats ts ts',
  (forall h, heqb h h = true) -> collision_free heqb hcomb ->
  wf (doc_arena old) -> wf (doc_arena new) -> body old = Some ob -> body new = Some nb ->
  holds (doc_arena old) (HElem tag ns oats ts) ob ->
  holds (doc_arena new) (HElem tag ns [] ts') nb ->
  NoDup (map fst oats) -> marked oats = false ->
  Forall2 (reworded (flat_map words ts) (flat_map words ts')) ts ts' ->
  forallb (lacks tag ns) ts' = true ->
  1 + list_sum (map hsize ts) <= 2 * same_words (HElem tag ns [] ts) (HElem tag ns [] ts') ->
  exists ps d,
    diff heqb hcomb h0 old new = Val ps /\
    ps ≡ₚ map (fun e => PSetText (fst e) (snd e)) (changed_words [0] (HElem tag ns [] ts) (HElem tag ns [] ts')) /\
    apply_patches parse old ps = (d, Val tt) /\
    wf (doc_arena d) /\ body d = Some ob /\
    holds (doc_arena d) (HElem tag ns oats ts') ob /\
    to_body_html d = to_body_html new /\
    doc_root d = doc_root old /\ doc_doctype d = doc_doctype old /\
    (forall i, i < length (doc_arena old) -> ~ above (doc_arena old) ob i ->
       data (doc_arena d) i = data (doc_arena old) i /\ children (doc_arena d) i = children (doc_arena old) i).
Proof.
  intros H heqb hcomb h0 parse old new ob nb tag ns oats ts ts' HR CF WO WN BO BN HO HN N1 M1 HF HLK HK.
  set (h := HElem tag ns [] ts) in *. set (h' := HElem tag ns [] ts') in *.
  assert (reworded (words h) (words h') h h') as HRW by (apply rw_elem; [constructor|done|done]).
  assert (forall O N t t', reworded O N t t' -> hsize t = hsize t') as HSZ.
  { intros O N t. induction t as [s|s|tag1 ns1 l cs IH] using htree_ind'; intros t' HT; inversion HT as [| |? ? ? ? cs' _ _ HFc]; subst; [done|done|].
    cbn [hsize]. f_equal. clear HT. induction HFc as [|c c' cs cs' Hc HFc IHc]; [done|]. cbn [map].
    change (hsize c + list_sum (map hsize cs) = hsize c' + list_sum (map hsize cs')).
    rewrite (IH c ltac:(left) c' Hc), IHc; [done|]. intros d Hd. apply IH. by right. }
  destruct (edits_in_place heqb hcomb h0 parse old new ob nb tag ns oats ts ts') as
    (ps & es & d & E1 & E2 & E3 & E4 & E5 & E6 & E7 & E8 & E9 & E10 & _ & E11); try done.
  - eapply Forall2_impl; [exact HF|]. intros t t'. apply reworded_edited.
  - by apply reworded_no_twins.
  - fold h h'. unfold half_kept. rewrite (reworded_kept _ _ _ _ _ HRW), <- (HSZ _ _ _ _ HRW). unfold h at 1 2. cbn [hsize]. lia.
  - fold h h'. intros p u v Hin Ho. exfalso. revert p u v Hin Ho.
    assert (forall O N t, forall t' p q u v, reworded O N t t' -> In (q, (u, v)) (spots p t t') -> hopaque u = true -> False) as HX.
    { intros O N t. induction t as [s|s|tag1 ns1 l cs IH] using htree_ind'; intros t' p q u v HT; inversion HT as [| |? ? ? ? cs' N2 M2 HFc]; subst.
      - intros [[= <- <- <-]|[]]; done.
      - intros [[= <- <- <-]|[]]; done.
      - rewrite spots_elem. change (is_opaque_props l) with (marked l). rewrite M2. intros [[= <- <- <-]|Hin].
        + cbn [hopaque]. change (is_opaque_props l) with (marked l). by rewrite M2.
        + clear HT. revert Hin. generalize 0. induction HFc as [|c c' cs cs' Hc HFc IHc]; intros k; [done|]. cbn [spots_in].
          rewrite in_app_iff. intros [Hin|Hin]; [by eapply (IH c ltac:(left))|]. eapply IHc; [|exact Hin]. intros x Hx. apply IH. by right. }
    intros p u v. by apply (HX _ _ _ _ _ _ _ _ HRW).
  - fold h h' in E2. rewrite (reworded_edits _ _ _ _ _ HRW) in E2. exists ps, d. split; [done|]. split.
    { assert (forall cw es ps, es ≡ₚ map text_edit cw -> Forall2 edit_for es ps -> ps ≡ₚ map (fun e => PSetText (fst e) (snd e)) cw) as HX; [|by eapply HX].
      clear. intros cw es ps HP HF.
      apply Permutation_map_inv in HP as (cw' & -> & HP).
      assert (ps = map (fun e => PSetText (fst e) (snd e)) cw') as ->; [|by rewrite HP].
      revert ps HF. clear. induction cw' as [|e cw IH]; intros ps HF; cbn [map] in *.
      - by apply Forall2_nil_inv_l in HF.
      - apply Forall2_cons_inv_l in HF as (p & ps' & Hp & HF & ->). cbn in Hp. subst p. f_equal. by apply IH. }
    split_and!; done.
Qed.
Print Assumptions texts_in_place.

(** Two texts, a comment, attributes of an element with an edit inside, and the
    content of an opaque element are edited, among others that stay. *)
Definition inplace_ts : list htree :=
  [el_a "h1" [ex_attr "id" "t"; ex_attr "class" "a"] [tx "Title"]; el "p" [tx "one"; el "b" [tx "two"]; tx "three"];
   opaque_el [el "i" [tx "widget"]]; HComment "note";
   el "ul" [el "li" [tx "x"]; el "li" [tx "y"]; el "li" [tx "y"]; el "li" [tx "z"]]; el "p" [tx "four"]; el "p" [tx "five"]].
Definition inplace_us : list htree :=
  [el_a "h1" [ex_attr "id" "t"; ex_attr "class" "b"] [tx "Headline"]; el "p" [tx "one"; el "b" [tx "2"]; tx "three"];
   opaque_el [tx "other"]; HComment "remark";
   el "ul" [el "li" [tx "x"]; el "li" [tx "y"]; el "li" [tx "y"]; el "li" [tx "z"]]; el "p" [tx "four"]; el "p" [tx "five"]].
Definition inplace_old : document := with_body_attrs [ex_attr "class" "dark"] (mk_doc [] inplace_ts).
Definition inplace_new : document := mk_doc [el "title" []] inplace_us.
Definition text_parser (s : string) : list htree := [HText s].

Lemma forall_spots (P : path * (htree * htree) -> Prop) l : Forall P l -> forall p u v, In (p, (u, v)) l -> P (p, (u, v)).
Proof. rewrite List.Forall_forall. eauto. Qed.

Example edits_in_place_example :
  let h := HElem "body" NsHtml [] inplace_ts in
  let h' := HElem "body" NsHtml [] inplace_us in
  wf (doc_arena inplace_old) /\ wf (doc_arena inplace_new) /\ body inplace_old = Some 2 /\ body inplace_new = Some 2 /\
  holds (doc_arena inplace_old) (HElem "body" NsHtml [ex_attr "class" "dark"] inplace_ts) 2 /\
  holds (doc_arena inplace_new) (HElem "body" NsHtml [] inplace_us) 2 /\
  Forall2 edited inplace_ts inplace_us /\
  forallb (lacks "body" NsHtml) inplace_us = true /\ no_twins h h' = true /\ half_kept h h' /\
  (forall p u v, In (p, (u, v)) (spots [0] h h') -> hopaque u = true ->
     if same_bare u v then hchildren u = hchildren v else text_parser (ser_ts false (hchildren v)) = hchildren v) /\
  pdiff inplace_old inplace_new =
  Val [PUpdateProps [0; 0] [mkPC (PAttr (mkQ None "" "id")) None; mkPC (PAttr (mkQ None "" "class")) (Some "b")];
       PSetText [0; 0; 0] "Headline"; PSetText [0; 1; 1; 0] "2"; PSetText [0; 3] "remark"; POpaqueChanged [0; 2] "other"].
Proof.
  cbv zeta. split; [apply wf_check_sound; vm_compute; reflexivity|]. split; [apply wf_check_sound; vm_compute; reflexivity|].
  split; [reflexivity|]. split; [reflexivity|]. split; [vm_compute; tauto|]. split; [vm_compute; tauto|]. split.
  { repeat (first [apply Forall2_cons_2|apply Forall2_nil_2|apply ed_text|apply ed_comment
                  |apply ed_elem; [apply nodup_names; reflexivity|apply nodup_names; reflexivity|reflexivity|reflexivity|right; vm_compute; lia|]
                  |apply ed_opaque; [apply nodup_names; reflexivity|apply nodup_names; reflexivity|reflexivity|reflexivity]]). }
  split; [vm_compute; reflexivity|]. split; [vm_compute; reflexivity|]. split; [unfold half_kept; vm_compute; lia|]. split.
  { apply (forall_spots (fun x => hopaque (fst (snd x)) = true ->
      if same_bare (fst (snd x)) (snd (snd x)) then hchildren (fst (snd x)) = hchildren (snd (snd x))
      else text_parser (ser_ts false (hchildren (snd (snd x)))) = hchildren (snd (snd x)))).
    vm_compute. repeat (apply List.Forall_cons; [cbn; intros Ho; first [discriminate Ho|reflexivity]|]). constructor. }
  vm_compute. reflexivity.
Qed.

Definition reword_ts : list htree :=
  [el "p" [tx "one"; el_a "b" [ex_attr "id" "x"] [tx "two"]]; el "p" [tx "one"; el_a "b" [ex_attr "id" "x"] [tx "three"]]; HComment "c";
   el "p" [tx "one"]; el "p" [tx "one"]].
Definition reword_us : list htree :=
  [el "p" [tx "one"; el_a "b" [ex_attr "id" "x"] [tx "2"]]; el "p" [tx "one"; el_a "b" [ex_attr "id" "x"] [tx "three"]]; HComment "d";
   el "p" [tx "one"]; el "p" [tx "one"]].
Example texts_in_place_example :
  let old := mk_doc [] reword_ts in
  let new := mk_doc [] reword_us in
  wf (doc_arena old) /\ wf (doc_arena new) /\ body old = Some 2 /\ body new = Some 2 /\
  holds (doc_arena old) (HElem "body" NsHtml [] reword_ts) 2 /\ holds (doc_arena new) (HElem "body" NsHtml [] reword_us) 2 /\
  Forall2 (reworded (flat_map words reword_ts) (flat_map words reword_us)) reword_ts reword_us /\
  forallb (lacks "body" NsHtml) reword_us = true /\
  1 + list_sum (map hsize reword_ts) <= 2 * same_words (HElem "body" NsHtml [] reword_ts) (HElem "body" NsHtml [] reword_us) /\
  pdiff old new = Val [PSetText [0; 0; 1; 0] "2"; PSetText [0; 2] "d"].
Proof.
  cbv zeta. split; [apply wf_check_sound; vm_compute; reflexivity|]. split; [apply wf_check_sound; vm_compute; reflexivity|].
  split; [reflexivity|]. split; [reflexivity|]. split; [vm_compute; tauto|]. split; [vm_compute; tauto|]. split.
  { repeat (first [apply Forall2_cons_2|apply Forall2_nil_2
                  |apply rw_text; vm_compute; intuition congruence
                  |apply rw_comment; vm_compute; intuition congruence
                  |apply rw_elem; [apply nodup_names; reflexivity|reflexivity|]]). }
  split; [vm_compute; reflexivity|]. split; [vm_compute; lia|]. vm_compute. reflexivity.
Qed.

(** ** Where the hypotheses are needed *)

(** Half of the nodes: the code falls back to pairing the roots only if the root
    of the new tree has no parent, which a body has.  One changed text in a page
    of one paragraph replaces the paragraph. *)
Definition inserts (p : patch) : bool := match p with PInsertElement _ _ _ _ _ => true | _ => false end.

Theorem texts_in_place_short_refuted : exists ts ts',
  Forall2 (reworded (flat_map words ts) (flat_map words ts')) ts ts' /\ forallb (lacks "body" NsHtml) ts' = true /\
  length (changed_words [0] (HElem "body" NsHtml [] ts) (HElem "body" NsHtml [] ts')) = 1 /\
  exists ps, pdiff (mk_doc [] ts) (mk_doc [] ts') = Val ps /\ length ps = 4 /\ existsb inserts ps = true.
Proof.
  exists [el "p" [tx "a"]], [el "p" [tx "c"]]. split.
  { apply Forall2_cons_2; [|apply Forall2_nil_2]. apply rw_elem; [apply nodup_names; reflexivity|reflexivity|].
    apply Forall2_cons_2; [|apply Forall2_nil_2]. apply rw_text. vm_compute. intuition congruence. }
  split; [vm_compute; reflexivity|]. split; [vm_compute; reflexivity|].
  eexists. split; [vm_compute; reflexivity|]. split; reflexivity.
Qed.

(** Attributes on the body: the old ones are not looked at, so the bodies do not
    count as alike.  Both bodies have the same attribute and one of two
    paragraphs is changed: it is replaced. *)
Theorem texts_in_place_body_attrs_refuted : exists ts ts' l,
  Forall2 (reworded (flat_map words ts) (flat_map words ts')) ts ts' /\ forallb (lacks "body" NsHtml) ts' = true /\
  1 + list_sum (map hsize ts) <= 2 * same_words (HElem "body" NsHtml [] ts) (HElem "body" NsHtml [] ts') /\
  length (changed_words [0] (HElem "body" NsHtml [] ts) (HElem "body" NsHtml [] ts')) = 1 /\
  exists ps, pdiff (with_body_attrs l (mk_doc [] ts)) (with_body_attrs l (mk_doc [] ts')) = Val ps /\
    existsb inserts ps = true.
Proof.
  exists [el "p" [tx "a"]; el "p" [tx "b"]; el "p" [tx "d"]], [el "p" [tx "c"]; el "p" [tx "b"]; el "p" [tx "d"]], [ex_attr "class" "x"]. split.
  { repeat (first [apply Forall2_cons_2|apply Forall2_nil_2|apply rw_text; vm_compute; intuition congruence
                  |apply rw_elem; [apply nodup_names; reflexivity|reflexivity|]]). }
  split; [vm_compute; reflexivity|]. split; [vm_compute; lia|]. split; [vm_compute; reflexivity|].
  eexists. split; [vm_compute; reflexivity|]. reflexivity.
Qed.

(** Twins: a paragraph that becomes equal to its neighbour. *)
Theorem edits_in_place_twins_refuted : exists ts ts',
  let h := HElem "body" NsHtml [] ts in
  let h' := HElem "body" NsHtml [] ts' in
  Forall2 edited ts ts' /\ forallb (lacks "body" NsHtml) ts' = true /\ half_kept h h' /\ no_twins h h' = false /\
  length (flat_map edits (spots [0] h h')) = 1 /\
  exists ps, pdiff (mk_doc [] ts) (mk_doc [] ts') = Val ps /\ existsb inserts ps = true.
Proof.
  exists [el "p" [tx "y"]; el "p" [tx "x"]; el "i" [tx "z"]], [el "p" [tx "y"]; el "p" [tx "y"]; el "i" [tx "z"]]. cbv zeta. split.
  { repeat (first [apply Forall2_cons_2|apply Forall2_nil_2|apply ed_text
                  |apply ed_elem; [apply nodup_names; reflexivity|apply nodup_names; reflexivity|reflexivity|reflexivity|right; vm_compute; lia|]]). }
  split; [vm_compute; reflexivity|]. split; [unfold half_kept; vm_compute; lia|]. split; [vm_compute; reflexivity|]. split; [vm_compute; reflexivity|].
  eexists. split; [vm_compute; reflexivity|]. reflexivity.
Qed.

(** An opaque element and an ordinary one with the same tag: editing a text in
    the ordinary one swaps the two, and the document that results is wrong - the
    edited paragraph is gone and the widget's content is in the ordinary
    element. *)
Theorem edits_in_place_opaque_refuted : exists ts ts' ps d,
  let h := HElem "body" NsHtml [] ts in
  let h' := HElem "body" NsHtml [] ts' in
  Forall2 edited ts ts' /\ forallb (lacks "body" NsHtml) ts' = true /\ half_kept h h' /\
  flat_map edits (spots [0] h h') = [([0; 1; 0; 0], EText "b")] /\
  pdiff (mk_doc [] ts) (mk_doc [] ts') = Val ps /\ apply_patches text_parser (mk_doc [] ts) ps = (d, Val tt) /\
  to_body_html (mk_doc [] ts') = Some "<div data-hotmeal-opaque="""">w</div><div><p>b</p></div><p>q</p><p>r</p>" /\
  to_body_html d = Some "<div data-hotmeal-opaque=""""></div><div>w</div><p>q</p><p>r</p>".
Proof.
  exists [opaque_el [tx "w"]; el "div" [el "p" [tx "a"]]; el "p" [tx "q"]; el "p" [tx "r"]].
  exists [opaque_el [tx "w"]; el "div" [el "p" [tx "b"]]; el "p" [tx "q"]; el "p" [tx "r"]].
  eexists. eexists. cbv zeta. split.
  { repeat (first [apply Forall2_cons_2|apply Forall2_nil_2|apply ed_text
                  |apply ed_elem; [apply nodup_names; reflexivity|apply nodup_names; reflexivity|reflexivity|reflexivity|right; vm_compute; lia|]
                  |apply ed_opaque; [apply nodup_names; reflexivity|apply nodup_names; reflexivity|reflexivity|reflexivity]]). }
  split; [vm_compute; reflexivity|]. split; [unfold half_kept; vm_compute; lia|]. split; [vm_compute; reflexivity|].
  split; [vm_compute; reflexivity|]. split; [vm_compute; reflexivity|]. split; vm_compute; reflexivity.
Qed.
Print Assumptions texts_in_place_short_refuted.
Print Assumptions texts_in_place_body_attrs_refuted.
Print Assumptions edits_in_place_twins_refuted.
Print Assumptions edits_in_place_opaque_refuted.
