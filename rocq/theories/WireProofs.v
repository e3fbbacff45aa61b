(** The wire format: what is written is read back. *)
From stdpp Require Import list_numbers.
From Coq Require Import NArith Ascii.
From Verif Require Import Base Arena Dom Server Wire.
Local Open Scope string_scope.

Lemma scat_assoc (a b c : string) : (a ++ b) ++ c = a ++ (b ++ c).
Proof. induction a as [|x a IH]; [done|]. cbn. by rewrite IH. Qed.
Lemma scat_nil (a : string) : a ++ "" = a.
Proof. induction a as [|x a IH]; [done|]. cbn. by rewrite IH. Qed.
Lemma scat_length (a b : string) : String.length (a ++ b) = String.length a + String.length b.
Proof. induction a as [|x a IH]; [done|]. cbn. by rewrite IH. Qed.

(** ** Numbers *)

Lemma byte_roundtrip n : (n < 256)%N -> N_of_ascii (ascii_of_N n) = n.
Proof. intros Hn. by apply N_ascii_embedding. Qed.

Lemma varint_roundtrip f : forall n r, (n < 128 ^ N.of_nat f)%N -> f <> 0 ->
  dec_varint f (enc_varint f n ++ r) = Some (n, r).
Proof.
  induction f as [|f IH]; intros n r Hn Hf; [done|]. cbn [enc_varint].
  destruct (N.ltb_spec n 128) as [Hl|Hl].
  - cbn [String.append dec_varint]. rewrite byte_roundtrip by lia. by destruct (N.ltb_spec n 128); [|lia].
  - cbn [String.append dec_varint].
    assert (n mod 128 < 128)%N as Hm by (apply N.mod_lt; lia). rewrite byte_roundtrip by lia.
    destruct (N.ltb_spec (n mod 128 + 128)%N 128) as [Hx|_]; [revert Hx; generalize (n mod 128)%N; lia|].
    assert (n / 128 < 128 ^ N.of_nat f)%N as Hd.
    { apply N.div_lt_upper_bound; [lia|]. rewrite Nat2N.inj_succ, N.pow_succ_r' in Hn. lia. }
    rewrite IH; [|done|].
    + assert (n mod 128 + 128 - 128 + 128 * (n / 128) = n)%N as ->; [|done].
      pose proof (N.div_mod n 128 ltac:(lia)) as E. revert E. generalize (n mod 128)%N, (n / 128)%N. lia.
    + intros ->. cbn in Hd. assert (n / 128 = 0)%N as E by lia. apply N.div_small_iff in E; lia.
Qed.

Lemma varint_pos f n : f <> 0 -> 0 < String.length (enc_varint f n).
Proof. destruct f; [done|]. cbn. intros _. destruct (N.ltb n 128); cbn; lia. Qed.

(** Rust's [u32] and [usize] *)
Definition u32 (n : nat) : Prop := (N.of_nat n < 2 ^ 32)%N.
Definition usize (n : nat) : Prop := (N.of_nat n < 2 ^ 64)%N.

Lemma u32_usize n : u32 n -> usize n.
Proof. unfold u32, usize. lia. Qed.
Lemma u32_le n m : n <= m -> u32 m -> u32 n.
Proof. unfold u32. lia. Qed.

(** [d] reads what [e] writes, as [f x]. *)
Definition reads {A B} (P : A -> Prop) (e : A -> string) (d : parser B) (f : A -> B) : Prop :=
  forall x r, P x -> d (e x ++ r) = Some (f x, r).

Lemma u32_reads : reads u32 enc_u32 dec_u32 (fun n => n).
Proof.
  intros n r Hn. unfold dec_u32, enc_u32, pbind. rewrite varint_roundtrip; [|unfold u32 in Hn; cbn in *; lia|done].
  destruct (N.ltb_spec (N.of_nat n) (2 ^ 32)); [|unfold u32 in Hn; lia]. unfold pret. by rewrite Nat2N.id.
Qed.
Lemma len_reads : reads usize enc_len dec_len N.of_nat.
Proof.
  intros n r Hn. unfold dec_len, enc_len, pbind. rewrite varint_roundtrip; [|unfold usize in Hn; cbn in *; lia|done].
  destruct (N.ltb_spec (N.of_nat n) (2 ^ 64)); [done|unfold usize in Hn; lia].
Qed.

(** ** Strings and sequences *)

Lemma take_reads s : forall r, take_bytes (N.of_nat (String.length s)) (s ++ r) = Some (s, r).
Proof.
  induction s as [|c s IH]; intros r; [by destruct r|]. cbn [String.length String.append take_bytes].
  destruct (N.eqb_spec (N.of_nat (S (String.length s))) 0); [lia|].
  replace (N.of_nat (S (String.length s)) - 1)%N with (N.of_nat (String.length s)) by lia. by rewrite IH.
Qed.
Definition short (s : string) : Prop := usize (String.length s).
Lemma str_reads : reads short enc_str dec_str (fun s => s).
Proof.
  intros s r Hs. unfold dec_str, enc_str, pbind. rewrite scat_assoc, len_reads by done. apply take_reads.
Qed.

Lemma n_reads {A B} (P : A -> Prop) e (d : parser B) f l : reads P e d f -> Forall P l ->
  forall fuel r, length l <= fuel -> dec_n d fuel (N.of_nat (length l)) (cat (map e l) ++ r) = Some (map f l, r).
Proof.
  intros Hr. induction 1 as [|x l Hx Hl IH]; intros fuel r Hf; [by destruct fuel|].
  cbn [length] in *. destruct fuel as [|fuel]; [lia|]. cbn [map cat dec_n].
  destruct (N.eqb_spec (N.of_nat (S (length l))) 0); [lia|]. unfold pbind.
  rewrite scat_assoc, Hr by done. replace (N.of_nat (S (length l)) - 1)%N with (N.of_nat (length l)) by lia.
  rewrite IH by lia. done.
Qed.
Lemma cat_length {A} (e : A -> string) l : (forall x, x ∈ l -> 0 < String.length (e x)) ->
  length l <= String.length (cat (map e l)).
Proof.
  induction l as [|x l IH]; intros Hp; cbn; [lia|]. rewrite scat_length.
  pose proof (Hp x ltac:(left)). specialize (IH (fun y Hy => Hp y ltac:(by right))). lia.
Qed.

Definition seq {A} (P : A -> Prop) (l : list A) : Prop := usize (length l) /\ Forall P l.
Definition nonempty {A} (e : A -> string) : Prop := forall x, 0 < String.length (e x).
Lemma list_reads {A B} (P : A -> Prop) e (d : parser B) f : reads P e d f -> nonempty e ->
  reads (seq P) (enc_list e) (dec_list d) (map f).
Proof.
  intros Hr Hp l r [Hl HF]. unfold dec_list, enc_list, pbind. rewrite scat_assoc, len_reads by done.
  apply (n_reads P); [done|done|]. rewrite scat_length. pose proof (cat_length e l (fun x _ => Hp x)). lia.
Qed.

Definition opt {A} (P : A -> Prop) (o : option A) : Prop := match o with Some x => P x | None => True end.
Lemma opt_reads {A B} (P : A -> Prop) e (d : parser B) f : reads P e d f ->
  reads (opt P) (enc_opt e) (dec_opt d) (fmap f).
Proof.
  intros Hr [x|] r Ho; cbn [enc_opt String.append dec_opt]; rewrite byte_roundtrip by lia; cbn; [|done].
  unfold pmap, pbind. by rewrite Hr.
Qed.

Lemma reads_pos {A} (e : A -> string) n x : 0 < String.length (enc_tag n ++ e x).
Proof. rewrite scat_length. pose proof (varint_pos 5 (N.of_nat n)). unfold enc_tag, enc_u32. lia. Qed.
Lemma tag_pos n s : 0 < String.length (enc_tag n ++ s).
Proof. rewrite scat_length. pose proof (varint_pos 5 (N.of_nat n)). unfold enc_tag, enc_u32. lia. Qed.
Lemma u32_pos : nonempty enc_u32.
Proof. intros n. by apply varint_pos. Qed.
Lemma opt_pos {A} (e : A -> string) : nonempty (enc_opt e).
Proof. intros [x|]; cbn; lia. Qed.

(** ** Patches *)

(** What a name becomes on the way. *)
Definition nq (q : qname) : qname := mkQ (no_empty (q_prefix q)) (q_ns q) (q_local q).
Definition nattr (a : attr) : attr := (nq (fst a), snd a).
Definition nkey (k : prop_key) : prop_key := match k with PText => PText | PAttr q => PAttr (nq q) end.
Definition nchange (c : prop_change) : prop_change := mkPC (nkey (pc_name c)) (pc_value c).
Fixpoint ncontent (c : icontent) : icontent :=
  match c with
  | ICElem tag ats cs => ICElem tag (map nattr ats) (map ncontent cs)
  | _ => c
  end.
Definition npatch (p : patch) : patch :=
  match p with
  | PInsertElement a tag ats cs sl => PInsertElement a tag (map nattr ats) (map ncontent cs) sl
  | PSetAttribute p q v => PSetAttribute p (nq q) v
  | PRemoveAttribute p q => PRemoveAttribute p (nq q)
  | PUpdateProps p l => PUpdateProps p (map nchange l)
  | _ => p
  end.

(** The Rust types bound every number and every length. *)
Definition fits_qname (q : qname) : Prop := opt short (q_prefix q) /\ short (q_ns q) /\ short (q_local q).
Definition fits_attr (a : attr) : Prop := fits_qname (fst a) /\ short (snd a).
Definition fits_key (k : prop_key) : Prop := match k with PText => True | PAttr q => fits_qname q end.
Definition fits_change (c : prop_change) : Prop := fits_key (pc_name c) /\ opt short (pc_value c).
Definition fits_path (p : path) : Prop := seq u32 p.
Fixpoint fits_content (c : icontent) : Prop :=
  match c with
  | ICElem tag ats cs => short tag /\ seq fits_attr ats /\ usize (length cs) /\
      (fix all (l : list icontent) : Prop := match l with [] => True | x :: l' => fits_content x /\ all l' end) cs
  | ICText s | ICComment s => short s
  end.
Definition fits_patch (p : patch) : Prop :=
  match p with
  | PInsertElement a tag ats cs sl =>
      fits_path a /\ short tag /\ seq fits_attr ats /\ seq fits_content cs /\ opt u32 sl
  | PInsertText a s sl | PInsertComment a s sl => fits_path a /\ short s /\ opt u32 sl
  | PRemove a => fits_path a
  | PSetText a s | POpaqueChanged a s => fits_path a /\ short s
  | PSetAttribute a q v => fits_path a /\ fits_qname q /\ short v
  | PRemoveAttribute a q => fits_path a /\ fits_qname q
  | PMove a b sl => fits_path a /\ fits_path b /\ opt u32 sl
  | PUpdateProps a l => fits_path a /\ seq fits_change l
  end.

Lemma no_empty_idem o : no_empty (no_empty o) = no_empty o.
Proof. by destruct o as [[|]|]. Qed.

Ltac step := unfold pbind at 1; rewrite ?scat_assoc.

Lemma qname_reads : reads fits_qname enc_qname dec_qname nq.
Proof.
  intros q r (H1 & H2 & H3). unfold dec_qname, enc_qname. step.
  assert (opt short (no_empty (q_prefix q))) as H1' by (destruct (q_prefix q) as [[|]|]; done).
  rewrite (opt_reads short _ _ _ str_reads) by done. step. rewrite str_reads by done. step. rewrite str_reads by done.
  unfold pret. rewrite option_fmap_id, no_empty_idem. done.
Qed.
Lemma attr_reads : reads fits_attr enc_attr dec_attr nattr.
Proof.
  intros [q v] r [H1 H2]. unfold dec_attr, enc_attr. cbn [fst snd] in *. step. rewrite qname_reads by done. step.
  by rewrite str_reads.
Qed.
Lemma qname_pos : nonempty enc_qname.
Proof. intros q. unfold enc_qname. rewrite scat_length. pose proof (opt_pos enc_str (no_empty (q_prefix q))). lia. Qed.
Lemma attr_pos : nonempty enc_attr.
Proof. intros a. unfold enc_attr. rewrite scat_length. pose proof (qname_pos (fst a)). lia. Qed.
Lemma attrs_reads : reads (seq fits_attr) enc_attrs dec_attrs (map nattr).
Proof. apply list_reads; [apply attr_reads|apply attr_pos]. Qed.
Lemma tag_reads n : u32 n -> forall r, dec_u32 (enc_tag n ++ r) = Some (n, r).
Proof. intros Hn r. by apply u32_reads. Qed.
Ltac tag := step; rewrite tag_reads by (unfold u32; lia); cbv beta iota.

Lemma key_reads : reads fits_key enc_key dec_key nkey.
Proof.
  intros [|q] r Hk; unfold dec_key; cbn [enc_key].
  - by tag.
  - tag. unfold pmap. step. by rewrite qname_reads.
Qed.
Lemma change_reads : reads fits_change enc_change dec_change nchange.
Proof.
  intros [k v] r [H1 H2]. unfold dec_change, enc_change. cbn [pc_name pc_value] in *. step. rewrite key_reads by done. step.
  rewrite (opt_reads short _ _ _ str_reads) by done. unfold pret. by rewrite option_fmap_id.
Qed.
Lemma change_pos : nonempty enc_change.
Proof.
  intros c. unfold enc_change. rewrite scat_length. pose proof (opt_pos enc_str (pc_value c)). lia.
Qed.
Lemma path_reads : reads fits_path enc_path dec_path (fun p => p).
Proof.
  intros p r Hp. unfold dec_path, enc_path. rewrite (list_reads u32 _ _ _ u32_reads u32_pos) by done.
  by rewrite map_id.
Qed.

(** Nesting depth *)
Fixpoint depth (c : icontent) : nat :=
  match c with
  | ICElem _ _ cs => S ((fix go (l : list icontent) : nat := match l with [] => 0 | x :: l' => Nat.max (depth x) (go l') end) cs)
  | _ => 1
  end.
Fixpoint depths (l : list icontent) : nat := match l with [] => 0 | x :: l' => Nat.max (depth x) (depths l') end.
Lemma depth_elem tag ats cs : depth (ICElem tag ats cs) = S (depths cs).
Proof. cbn. f_equal. Qed.
Lemma fits_elem tag ats cs : fits_content (ICElem tag ats cs) <-> short tag /\ seq fits_attr ats /\ seq fits_content cs.
Proof.
  cbn [fits_content]. unfold seq at 3.
  assert ((fix all (l : list icontent) : Prop := match l with [] => True | x :: l' => fits_content x /\ all l' end) cs
    <-> Forall fits_content cs) as ->; [|tauto].
  induction cs as [|c cs IH]; [by split; [constructor|]|]. rewrite IH. split; [intros []; by constructor|].
  intros HF. by inversion HF.
Qed.

Lemma content_ind' (P : icontent -> Prop) : (forall s, P (ICText s)) -> (forall s, P (ICComment s)) ->
  (forall tag ats cs, (forall c, c ∈ cs -> P c) -> P (ICElem tag ats cs)) -> forall c, P c.
Proof.
  intros HT HC HE. fix IH 1. intros [tag ats cs|s|s]; [|apply HT|apply HC]. apply HE.
  induction cs as [|c cs IHcs]; intros x Hx; [exfalso; by apply elem_of_nil in Hx|].
  apply elem_of_cons in Hx as [->|Hx]; [apply IH|exact (IHcs x Hx)].
Qed.

Lemma depths_le l n : depths l <= n <-> forall c, c ∈ l -> depth c <= n.
Proof.
  induction l as [|x l IH]; cbn; [split; [intros _ c Hc; by apply elem_of_nil in Hc|lia]|].
  split.
  - intros Hn c Hc. apply elem_of_cons in Hc as [->|Hc]; [lia|]. apply IH; [lia|done].
  - intros Hn. pose proof (Hn x ltac:(left)). assert (depths l <= n) by (apply IH; intros c Hc; apply Hn; by right). lia.
Qed.
Lemma cat_member {A} (e : A -> string) x l : x ∈ l -> String.length (e x) <= String.length (cat (map e l)).
Proof.
  induction 1 as [x l|x y l Hx IH]; cbn; rewrite scat_length; lia.
Qed.
Lemma depth_length c : depth c <= String.length (enc_content c).
Proof.
  induction c as [s|s|tag ats cs IH] using content_ind'.
  1,2: cbn [enc_content depth]; pose proof (tag_pos 1 (enc_str s)); pose proof (tag_pos 2 (enc_str s)); lia.
  rewrite depth_elem. cbn [enc_content]. rewrite !scat_length.
  assert (depths cs <= String.length (cat (map enc_content cs))).
  { apply depths_le. intros c Hc. specialize (IH c Hc). pose proof (cat_member enc_content c cs Hc). lia. }
  assert (0 < String.length (enc_tag 0)) by (by apply varint_pos). lia.
Qed.

Lemma content_pos : nonempty enc_content.
Proof. intros [tag ats cs|s|s]; cbn [enc_content]; apply tag_pos. Qed.

Lemma content_reads c : forall fuel r, fits_content c -> depth c <= fuel ->
  dec_content fuel (enc_content c ++ r) = Some (ncontent c, r).
Proof.
  induction c as [s|s|tag ats cs IH] using content_ind'; intros fuel r Hc Hf.
  1,2: destruct fuel as [|fuel]; [cbn in Hf; lia|]; cbn [dec_content enc_content]; tag; unfold pmap; step; by rewrite str_reads.
  rewrite depth_elem in Hf. destruct fuel as [|fuel]; [lia|]. apply fits_elem in Hc as (H1 & H2 & H3 & H4).
  cbn [dec_content enc_content ncontent]. tag. step. rewrite str_reads by done. step. rewrite attrs_reads by done. step.
  assert (reads (fun c => c ∈ cs) enc_content (dec_content fuel) ncontent) as HR.
  { intros c r' Hc. apply IH; [done|by apply (proj1 (Forall_forall _ _) H4)|].
    assert (depths cs <= fuel) as Hd by lia. by apply (proj1 (depths_le _ _) Hd). }
  rewrite <- scat_assoc. change (enc_len (length cs) ++ cat (map enc_content cs)) with (enc_list enc_content cs).
  rewrite (list_reads _ _ _ _ HR content_pos); [done|]. split; [done|]. by apply Forall_forall.
Qed.
Lemma contents_reads : reads (seq fits_content) (enc_list enc_content) dec_contents (map ncontent).
Proof.
  intros cs r [H1 H2]. unfold dec_contents.
  assert (reads (fun c => c ∈ cs) enc_content (dec_content (String.length (enc_list enc_content cs ++ r))) ncontent) as HR.
  { intros c r' Hc. apply content_reads; [by apply (proj1 (Forall_forall _ _) H2)|].
    pose proof (depth_length c). pose proof (cat_member enc_content c cs Hc).
    unfold enc_list. rewrite !scat_length. lia. }
  rewrite (list_reads _ _ _ _ HR content_pos); [done|]. split; [done|]. by apply Forall_forall.
Qed.

Lemma opt_u32_reads : reads (opt u32) (enc_opt enc_u32) (dec_opt dec_u32) (fun o => o).
Proof. intros o r Ho. rewrite (opt_reads u32 _ _ _ u32_reads) by done. by rewrite option_fmap_id. Qed.

Ltac field := step; first [rewrite path_reads by done|rewrite str_reads by done|rewrite attrs_reads by done|
  rewrite contents_reads by done|rewrite opt_u32_reads by done|rewrite qname_reads by done|
  rewrite (list_reads _ _ _ _ change_reads change_pos) by done].

Lemma patch_reads : reads fits_patch enc_patch dec_patch npatch.
Proof.
  intros p r Hp. unfold dec_patch. destruct p; cbn [enc_patch npatch fits_patch] in *; tag;
    repeat match goal with H : _ /\ _ |- _ => destruct H end; repeat field; done.
Qed.
Lemma patch_pos : nonempty enc_patch.
Proof. intros []; cbn [enc_patch]; apply tag_pos. Qed.

Lemma blob_reads : reads (seq fits_patch) to_blob (dec_list dec_patch) (map npatch).
Proof. apply list_reads; [apply patch_reads|apply patch_pos]. Qed.

(** ** More bytes do not change what was read *)

Definition stable {A} (d : parser A) : Prop := forall s x r t, d s = Some (x, r) -> d (s ++ t) = Some (x, r ++ t).
(** [d'] reads at least what [d] reads. *)
Definition below {A} (d d' : parser A) : Prop := forall s x, d s = Some x -> d' s = Some x.

Lemma pret_stable {A} (x : A) : stable (pret x).
Proof. intros s y r t. unfold pret. by intros [= -> ->]. Qed.
Lemma pnone_stable {A} : stable (@pnone A).
Proof. done. Qed.
Lemma pbind_stable {A B} (p : parser A) (k : A -> parser B) : stable p -> (forall x, stable (k x)) -> stable (pbind p k).
Proof.
  intros Hp Hk s y r t. unfold pbind. destruct (p s) as [[x r1]|] eqn:E; [|done]. intros Ek.
  rewrite (Hp _ _ _ t E). by apply Hk.
Qed.
Lemma pmap_stable {A B} (f : A -> B) p : stable p -> stable (pmap f p).
Proof. intros Hp. apply pbind_stable; [done|]. intros x. apply pret_stable. Qed.

Lemma varint_stable f : stable (dec_varint f).
Proof.
  induction f as [|f IH]; intros s x r t; [done|]. destruct s as [|c s]; [done|]. cbn [dec_varint String.append].
  destruct (N.ltb (N_of_ascii c) 128); [by intros [= -> ->]|].
  destruct (dec_varint f s) as [[m r1]|] eqn:E; [|done]. intros [= <- <-]. by rewrite (IH _ _ _ t E).
Qed.
Lemma u32_stable : stable dec_u32.
Proof. apply pbind_stable; [apply varint_stable|]. intros n. destruct (N.ltb n (2 ^ 32)); [apply pret_stable|apply pnone_stable]. Qed.
Lemma len_stable : stable dec_len.
Proof. apply pbind_stable; [apply varint_stable|]. intros n. destruct (N.ltb n (2 ^ 64)); [apply pret_stable|apply pnone_stable]. Qed.

Lemma take_stable s : forall n x r t, take_bytes n s = Some (x, r) -> take_bytes n (s ++ t) = Some (x, r ++ t).
Proof.
  induction s as [|c s IH]; intros n x r t.
  - cbn [take_bytes]. destruct (N.eqb_spec n 0) as [->|]; [|done]. intros [= <- <-]. by destruct t.
  - cbn [take_bytes String.append]. destruct (N.eqb n 0); [by intros [= <- <-]|].
    destruct (take_bytes (n - 1) s) as [[a r1]|] eqn:E; [|done]. intros [= <- <-]. by rewrite (IH _ _ _ t E).
Qed.
Lemma str_stable : stable dec_str.
Proof. apply pbind_stable; [apply len_stable|]. intros n s x r t. apply take_stable. Qed.

Lemma n_below {A} (d d' : parser A) : below d d' ->
  forall f f' n s x, f <= f' -> dec_n d f n s = Some x -> dec_n d' f' n s = Some x.
Proof.
  intros Hd. induction f as [|f IH]; intros f' n s x Hf; cbn [dec_n].
  - destruct (N.eqb n 0) eqn:E; [|done]. destruct f'; cbn [dec_n]; by rewrite E.
  - destruct f' as [|f']; [lia|]. cbn [dec_n]. destruct (N.eqb n 0); [done|]. unfold pbind.
    destruct (d s) as [[y r]|] eqn:E; [|done]. rewrite (Hd _ _ E).
    destruct (dec_n d f (n - 1) r) as [[l r']|] eqn:E'; [|done]. by rewrite (IH f' _ _ _ ltac:(lia) E').
Qed.
Lemma n_stable {A} (d : parser A) : stable d -> forall f n, stable (dec_n d f n).
Proof.
  intros Hd. induction f as [|f IH]; intros n; cbn [dec_n]; destruct (N.eqb n 0).
  1,3: apply pret_stable. 1: apply pnone_stable.
  apply pbind_stable; [done|]. intros x. apply pbind_stable; [apply IH|]. intros l. apply pret_stable.
Qed.
Lemma list_stable {A} (d : parser A) : stable d -> stable (dec_list d).
Proof.
  intros Hd. apply pbind_stable; [apply len_stable|]. intros n s x r t E.
  apply (n_below d d (fun _ _ H => H) (String.length s)); [rewrite scat_length; lia|]. by apply (n_stable d Hd).
Qed.
Lemma list_below {A} (d d' : parser A) : below d d' -> below (dec_list d) (dec_list d').
Proof.
  intros Hd s x. unfold dec_list, pbind. destruct (dec_len s) as [[n r]|]; [|done]. by apply n_below.
Qed.
Lemma opt_stable {A} (d : parser A) : stable d -> stable (dec_opt d).
Proof.
  intros Hd s x r t. destruct s as [|c s]; [done|]. cbn [dec_opt String.append].
  destruct (N.eqb (N_of_ascii c) 0); [by intros [= <- <-]|]. destruct (N.eqb (N_of_ascii c) 1); [|done].
  by apply pmap_stable.
Qed.

Ltac stability := repeat first [apply pret_stable|apply pnone_stable|apply u32_stable|apply str_stable|
  apply opt_stable|apply list_stable|apply pmap_stable|apply pbind_stable; [|intros ?]].

Lemma qname_stable : stable dec_qname.
Proof. unfold dec_qname. stability. Qed.
Lemma attrs_stable : stable dec_attrs.
Proof. unfold dec_attrs, dec_attr. stability. Qed.
Lemma path_stable : stable dec_path.
Proof. unfold dec_path. stability. Qed.
Lemma change_stable : stable dec_change.
Proof.
  unfold dec_change, dec_key. stability.
  match goal with |- stable (match ?n with _ => _ end) => destruct n as [|[|]] end; stability.
Qed.

Lemma content_below f : forall f', f <= f' -> below (dec_content f) (dec_content f').
Proof.
  induction f as [|f IH]; intros f' Hf s x; [done|]. destruct f' as [|f']; [lia|]. cbn [dec_content]. unfold pbind at 1 5.
  destruct (dec_u32 s) as [[[|n] r]|]; [|done|done]. unfold pbind.
  destruct (dec_str r) as [[tag r1]|]; [|done]. destruct (dec_attrs r1) as [[ats r2]|]; [|done].
  destruct (dec_list (dec_content f) r2) as [y|] eqn:E; [|done].
  by rewrite (list_below _ _ (IH f' ltac:(lia)) _ _ E).
Qed.
Lemma content_stable f : stable (dec_content f).
Proof.
  induction f as [|f IH]; [done|]. cbn [dec_content]. apply pbind_stable; [apply u32_stable|].
  intros [|[|[|n]]]; stability; done.
Qed.
Lemma contents_stable : stable dec_contents.
Proof.
  intros s x r t E. unfold dec_contents in *.
  apply (list_below (dec_content (String.length s))); [apply content_below; rewrite scat_length; lia|].
  by apply (list_stable _ (content_stable _)).
Qed.
Lemma patch_stable : stable dec_patch.
Proof.
  unfold dec_patch. apply pbind_stable; [apply u32_stable|]. intros n.
  do 10 (destruct n as [|n]; [repeat first [apply contents_stable|apply change_stable|apply pret_stable|apply u32_stable|apply str_stable|
    apply path_stable|apply attrs_stable|apply qname_stable|apply opt_stable|apply list_stable|apply pbind_stable; [|intros ?]]|]).
  apply pnone_stable.
Qed.
