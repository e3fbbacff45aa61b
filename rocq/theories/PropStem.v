(** Property theorems C64: stems and characters. *)
From Coq Require Import NArith ZArith.
From Verif Require Import Base Arena Dom Stem.
Local Open Scope string_scope.

(** ** Encodings *)

Lemma byte_N n : (n < 256)%N -> N_of_ascii (byte n) = n.
Proof. apply N_ascii_embedding. Qed.
Lemma byte_inj n k : (n < 256)%N -> (k < 256)%N -> byte n = byte k -> n = k.
Proof. intros Hn Hk E. rewrite <- (byte_N n Hn), <- (byte_N k Hk). by rewrite E. Qed.

(** How many bytes follow a first byte. *)
Definition extra (b : ascii) : nat :=
  if (N_of_ascii b <? 128)%N then 0 else if (N_of_ascii b <? 224)%N then 1 else if (N_of_ascii b <? 240)%N then 2 else 3.

Ltac Zify.zify_post_hook ::= Z.div_mod_to_equations.

Lemma enc_shape c : scalar c -> exists b r, enc c = String b r /\ is_cont b = false /\ String.length r = extra b.
Proof.
  unfold scalar, enc, extra, is_cont. intros Hc.
  destruct (N.ltb_spec c 128); [|destruct (N.ltb_spec c 2048); [|destruct (N.ltb_spec c 65536)]];
    eexists; eexists; (split; [reflexivity|]); rewrite byte_N by lia.
  - split; [destruct (N.leb_spec 128 c); [lia|done]|]. destruct (N.ltb_spec c 128); [done|lia].
  - split. { destruct (N.ltb_spec (192 + c / 64) 192); [lia|]. by rewrite Bool.andb_false_r. }
    destruct (N.ltb_spec (192 + c / 64) 128); [lia|]. destruct (N.ltb_spec (192 + c / 64) 224); [done|lia].
  - split. { destruct (N.ltb_spec (224 + c / 4096) 192); [lia|]. by rewrite Bool.andb_false_r. }
    destruct (N.ltb_spec (224 + c / 4096) 128); [lia|]. destruct (N.ltb_spec (224 + c / 4096) 224); [lia|].
    destruct (N.ltb_spec (224 + c / 4096) 240); [done|lia].
  - split. { destruct (N.ltb_spec (240 + c / 262144) 192); [lia|]. by rewrite Bool.andb_false_r. }
    destruct (N.ltb_spec (240 + c / 262144) 128); [lia|]. destruct (N.ltb_spec (240 + c / 262144) 224); [lia|].
    destruct (N.ltb_spec (240 + c / 262144) 240); [lia|done].
Qed.

Lemma enc_conts c b r : scalar c -> enc c = String b r -> forall i x, String.get i r = Some x -> is_cont x = true.
Proof.
  assert (forall n, is_cont (byte (128 + n mod 64)) = true) as HC.
  { intros n. assert (n mod 64 < 64)%N as Hm by by apply N.mod_lt. revert Hm. generalize (n mod 64)%N. intros k Hm. unfold is_cont. rewrite byte_N by lia. apply Bool.andb_true_iff.
    split; [apply N.leb_le|apply N.ltb_lt]; lia. }
  unfold enc. intros Hc E i x.
  destruct (c <? 128)%N; [|destruct (c <? 2048)%N; [|destruct (c <? 65536)%N]]; injection E as <- <-.
  - by destruct i.
  - destruct i as [|i]; cbn; [intros [= <-]; apply HC|by destruct i].
  - destruct i as [|[|i]]; cbn; [intros [= <-]; apply HC|intros [= <-]; apply HC|by destruct i].
  - destruct i as [|[|[|i]]]; cbn; [intros [= <-]; apply HC|intros [= <-]; apply HC|intros [= <-]; apply HC|by destruct i].
Qed.

Lemma digits c : (c = 64 * (c / 64) + c mod 64 /\ c / 64 = 64 * (c / 4096) + (c / 64) mod 64 /\
  c / 4096 = 64 * (c / 262144) + (c / 4096) mod 64 /\ c mod 64 < 64 /\ (c / 64) mod 64 < 64 /\ (c / 4096) mod 64 < 64)%N.
Proof.
  pose proof (N.div_mod' c 64). pose proof (N.div_mod' (c / 64) 64) as H1. pose proof (N.div_mod' (c / 4096) 64) as H2.
  rewrite N.div_div in H1 by done. rewrite N.div_div in H2 by done. split_and!; try done; by apply N.mod_lt.
Qed.
Lemma enc_inj c d : scalar c -> scalar d -> enc c = enc d -> c = d.
Proof.
  unfold scalar, enc. intros Hc Hd.
  destruct (digits c) as (C1 & C2 & C3 & C4 & C5 & C6). destruct (digits d) as (D1 & D2 & D3 & D4 & D5 & D6).
  revert C1 C2 C3 C4 C5 C6 D1 D2 D3 D4 D5 D6.
  generalize (c mod 64)%N ((c / 64) mod 64)%N ((c / 4096) mod 64)%N (d mod 64)%N ((d / 64) mod 64)%N ((d / 4096) mod 64)%N.
  generalize (c / 64)%N (c / 4096)%N (c / 262144)%N (d / 64)%N (d / 4096)%N (d / 262144)%N. intros.
  revert select (_ = _ :> string).
  destruct (N.ltb_spec c 128); [|destruct (N.ltb_spec c 2048); [|destruct (N.ltb_spec c 65536)]];
    (destruct (N.ltb_spec d 128); [|destruct (N.ltb_spec d 2048); [|destruct (N.ltb_spec d 65536)]]); intros E; try discriminate E;
    injection E; clear E; intros;
    repeat match goal with H : byte _ = byte _ |- _ => apply byte_inj in H; [|lia|lia] end; lia.
Qed.

Lemma append_nil_r s : s ++ "" = s.
Proof. induction s; cbn; congruence. Qed.
Lemma append_assoc s t u : (s ++ t) ++ u = s ++ (t ++ u).
Proof. induction s; cbn; congruence. Qed.
Lemma append_len s t : String.length (s ++ t) = String.length s + String.length t.
Proof. induction s; cbn; congruence. Qed.
Lemma append_split : forall a b x y, String.length a = String.length b -> a ++ x = b ++ y -> a = b /\ x = y.
Proof.
  induction a as [|c a IH]; intros [|d b] x y; cbn; try done. intros [= HL] [= -> E]. destruct (IH b x y HL E) as [-> ->]. done.
Qed.
Lemma get_append_r s t i : String.get (String.length s + i) (s ++ t) = String.get i t.
Proof. induction s as [|c s IH]; [done|]. cbn. apply IH. Qed.

(** The rest of a text after one that is a text, too. *)
Lemma utf8_prefix : forall cs1 cs2 q, Forall scalar cs1 -> Forall scalar cs2 -> utf8 cs2 = utf8 cs1 ++ q ->
  exists cs3, cs2 = (cs1 ++ cs3)%list /\ q = utf8 cs3.
Proof.
  induction cs1 as [|c cs1 IH]; intros cs2 q H1 H2 E; [by exists cs2|]. apply Forall_cons in H1 as [Hc H1].
  destruct (enc_shape c Hc) as (b & r & Eb & _ & Lb). cbn [utf8] in E. rewrite Eb in E.
  destruct cs2 as [|d cs2]; [done|]. apply Forall_cons in H2 as [Hd H2]. destruct (enc_shape d Hd) as (b' & r' & Eb' & _ & Lb').
  cbn [utf8] in E. rewrite Eb' in E. cbn in E. injection E as -> E. rewrite append_assoc in E.
  apply append_split in E as [-> E]; [|congruence]. rewrite <- Eb' in Eb. apply enc_inj in Eb as ->; [|done|done].
  destruct (IH cs2 q H1 H2 E) as (cs3 & -> & ->). by exists cs3.
Qed.
Lemma utf8_head cs : Forall scalar cs -> match utf8 cs with "" => True | String b _ => is_cont b = false end.
Proof.
  destruct cs as [|c cs]; [done|]. intros HF. apply Forall_cons in HF as [Hc _]. destruct (enc_shape c Hc) as (b & r & Eb & Hb & _).
  cbn [utf8]. by rewrite Eb.
Qed.
(** A text cut before a byte that starts a character. *)
Lemma utf8_cut : forall cs p b q, Forall scalar cs -> utf8 cs = p ++ String b q -> is_cont b = false ->
  exists cs1 cs2, cs = (cs1 ++ cs2)%list /\ p = utf8 cs1 /\ String b q = utf8 cs2.
Proof.
  induction cs as [|c cs IH]; intros p b q HF E Hb; [by destruct p|].
  apply Forall_cons in HF as [Hc HF]. destruct (enc_shape c Hc) as (x & r & Ex & _). cbn [utf8] in E. 
  destruct p as [|y p]; [exists [], (c :: cs); cbn [utf8]; by rewrite E|].
  rewrite Ex in E. cbn in E. injection E as -> E.
  assert (exists p', p = r ++ p' /\ utf8 cs = p' ++ String b q) as (p' & -> & E').
  { pose proof (enc_conts c y r Hc Ex) as HC. clear Ex. revert p E. induction r as [|z r IHr]; intros p E; [by exists p|].
    destruct p as [|z' p].
    - cbn in E. injection E as -> _. specialize (HC 0 b eq_refl). congruence.
    - cbn in E. injection E as -> E. destruct (IHr ltac:(intros i v; apply (HC (S i))) p E) as (p' & -> & E'). by exists p'. }
  destruct (IH p' b q HF E' Hb) as (cs1 & cs2 & -> & -> & E2). exists (c :: cs1), cs2. split; [done|]. cbn [utf8]. by rewrite Ex.
Qed.

(** ** C64: texts and characters *)

(** A text has one list of characters, and the escaping loops, which go by
    characters, do what the model's, by bytes, do. *)
Theorem characters_and_bytes : forall cs, Forall scalar cs ->
  (forall ds, Forall scalar ds -> utf8 ds = utf8 cs -> ds = cs) /\
  escape_text_chars cs = escape_text (utf8 cs) /\
  escape_attr_chars cs = escape_attr (utf8 cs).
Proof.
  intros cs HF. split.
  { intros ds HD E. rewrite <- (append_nil_r (utf8 cs)) in E. destruct (utf8_prefix cs ds "" HF HD E) as (cs3 & -> & E3).
    destruct cs3 as [|c cs3]; [by rewrite app_nil_r|]. apply Forall_app in HD as [_ HD]. apply Forall_cons in HD as [Hc _].
    destruct (enc_shape c Hc) as (b & r & Eb & _). cbn [utf8] in E3. by rewrite Eb in E3. }
  assert (forall (f : ascii -> string) (g : N -> string),
     (forall c, scalar c -> (c < 128)%N -> f (byte c) = g c) ->
     (forall c, scalar c -> (128 <= c)%N -> g c = enc c) ->
     (forall b, (128 <= N_of_ascii b)%N -> f b = String b "") ->
     String.concat "" (map g cs) = str_flat_map f (utf8 cs)) as HG.
  { intros f g H1 H2 H3.
    assert (forall s t, str_flat_map f (s ++ t) = str_flat_map f s ++ str_flat_map f t) as HA.
    { induction s as [|c s IH]; intros t; [done|]. cbn. by rewrite IH, append_assoc. }
    assert (forall c, scalar c -> str_flat_map f (enc c) = g c) as HE.
    { intros c Hc. destruct (N.lt_ge_cases c 128) as [Hl|Hg].
      - unfold enc. destruct (N.ltb_spec c 128); [|lia]. cbn [str_flat_map]. rewrite append_nil_r. by apply H1.
      - rewrite H2 by done. unfold scalar in Hc. unfold enc. destruct (N.ltb_spec c 128); [lia|].
        destruct (digits c) as (C1 & C2 & C3 & C4 & C5 & C6). revert C1 C2 C3 C4 C5 C6.
        generalize (c mod 64)%N ((c / 64) mod 64)%N ((c / 4096) mod 64)%N.
        generalize (c / 64)%N (c / 4096)%N (c / 262144)%N. intros.
        destruct (N.ltb_spec c 2048); [|destruct (N.ltb_spec c 65536)]; cbn [str_flat_map];
          rewrite ?H3 by (rewrite byte_N by lia; lia); done. }
    clear H1 H2 H3. induction HF as [|c cs Hc HF IH]; [done|]. cbn [map utf8]. rewrite HA, (HE c Hc), <- IH.
    destruct cs; cbn [map String.concat]; [by rewrite append_nil_r|done]. }
  assert (forall b x, (128 <= N_of_ascii b)%N -> (N_of_ascii x < 128)%N -> Ascii.eqb b x = false) as HN.
  { intros b x Hb Hx. destruct (Ascii.eqb_spec b x) as [->|]; [lia|done]. }
  assert (forall c x, (c < 128)%N -> Ascii.eqb (byte c) x = (c =? N_of_ascii x)%N) as HB.
  { intros c x Hc. destruct (N.eqb_spec c (N_of_ascii x)) as [->|Hn].
    - unfold byte. rewrite ascii_N_embedding. apply Ascii.eqb_refl.
    - destruct (Ascii.eqb_spec (byte c) x) as [<-|]; [|done]. rewrite byte_N in Hn by lia. done. }
  split; unfold escape_text_chars, escape_attr_chars, escape_text, escape_attr; apply HG.
  - intros c Hc Hl. unfold esc_text_char. rewrite !HB by done. cbn. unfold enc. destruct (N.ltb_spec c 128); [done|lia].
  - intros c Hc Hg. destruct (N.eqb_spec c 38); [lia|]. destruct (N.eqb_spec c 60); [lia|done].
  - intros b Hb. unfold esc_text_char. rewrite !HN by (done || reflexivity). done.
  - intros c Hc Hl. unfold esc_attr_char, quote_char. rewrite !HB by done. cbn. unfold enc. destruct (N.ltb_spec c 128); [done|lia].
  - intros c Hc Hg. destruct (N.eqb_spec c 38); [lia|]. destruct (N.eqb_spec c 34); [lia|].
    destruct (N.eqb_spec c 60); [lia|]. destruct (N.eqb_spec c 62); [lia|done].
  - intros b Hb. unfold esc_attr_char, quote_char. rewrite !HN by (done || reflexivity). done.
Qed.
Print Assumptions characters_and_bytes.

(** "<é€😀>" *)
Example characters_and_bytes_example :
  Forall scalar [60; 233; 8364; 128512; 62]%N /\ String.length (utf8 [60; 233; 8364; 128512; 62]%N) = 11 /\
  escape_attr_chars [60; 233; 62]%N = "&lt;" ++ utf8 [233]%N ++ "&gt;".
Proof. split; [repeat constructor|]. split; reflexivity. Qed.

(** ** C64: stems *)

Lemma load_app m : forall n k a, load m a (n + k) = load m a n ++ load m (a + n) k.
Proof.
  induction n as [|n IH]; intros k a; cbn; [by rewrite Nat.add_0_r|]. rewrite IH. by replace (a + S n) with (S a + n) by lia.
Qed.
Lemma load_len m : forall n a, String.length (load m a n) = n.
Proof. induction n as [|n IH]; intros a; [done|]. cbn. by rewrite IH. Qed.
Lemma load_agree m m' : forall n a, (forall i, a <= i < a + n -> m i = m' i) -> load m a n = load m' a n.
Proof. induction n as [|n IH]; intros a HA; [done|]. cbn. rewrite (HA a ltac:(lia)), IH; [done|]. intros i Hi. apply HA. lia. Qed.

(** The address lies inside a character of the text. *)
Definition splits_character (m : memory) (input : slice) (a : nat) : Prop :=
  sl_start input < a < sl_start input + sl_len input /\ is_cont (m a) = true.

(** The stem made of a piece of text of the parser has that text.  It is borrowed
    exactly if the piece lies within the input. *)
Theorem stem_of_tendril : forall m input t cs ds,
  Forall scalar cs -> Forall scalar ds ->
  text_at m input = utf8 cs -> text_at m t = utf8 ds ->
  (sl_len t = 0 -> ~ splits_character m input (sl_start t)) ->
  exists s, tendril_to_stem m input t = Val s /\ as_str m s = text_at m t /\
    ((exists b, s = Borrowed b) <->
     sl_start input <= sl_start t /\ sl_start t + sl_len t <= sl_start input + sl_len input).
Proof.
  intros m [i n] [a k] cs ds HC HD EI ET HE. unfold text_at, tendril_to_stem, splits_character in *. cbn [sl_start sl_len] in *.
  destruct (Nat.leb_spec i a); cbn [andb]; [|by exists (Owned (load m a k)); split; [|split; [|split; [intros [b Hb]|]]]; (done || lia)].
  destruct (Nat.leb_spec (a + k) (i + n)); [|by exists (Owned (load m a k)); split; [|split; [|split; [intros [b Hb]|]]]; (done || lia)].
  assert (load m i n = load m i (a - i) ++ load m a k ++ load m (a + k) (i + n - (a + k))) as EL.
  { replace n with ((a - i) + (k + (i + n - (a + k)))) at 1 by lia. rewrite !load_app. by replace (i + (a - i)) with a by lia. }
  assert (String.length (load m i (a - i)) = a - i) as L1 by apply load_len.
  assert (is_char_boundary (load m i n) (a - i) = true /\ is_char_boundary (load m i n) (a - i + k) = true) as [B1 B2].
  { destruct k as [|k].
    - rewrite Nat.add_0_r. assert (is_char_boundary (load m i n) (a - i) = true) as HB; [|done].
      unfold is_char_boundary. rewrite load_len. destruct (Nat.eqb_spec (a - i) 0); [done|]. destruct (Nat.eqb_spec (a - i) n); [done|].
      cbn [orb]. rewrite EL. replace (a - i) with (String.length (load m i (a - i)) + 0) at 1 by lia. rewrite get_append_r.
      cbn [load String.append]. replace (i + n - (a + 0)) with (S (i + n - S a)) by lia. cbn [load String.append String.get]. rewrite Nat.add_0_r.
      destruct (is_cont (m a)) eqn:Ec; [|done]. exfalso. apply HE; [done|]. split; [lia|done].
    - assert (is_cont (m a) = false) as Hb.
      { pose proof (utf8_head ds HD) as HH. rewrite <- ET in HH. exact HH. }
      split.
      { unfold is_char_boundary. rewrite load_len. destruct (Nat.eqb_spec (a - i) 0); [done|]. destruct (Nat.eqb_spec (a - i) n); [done|].
        cbn [orb]. rewrite EL. replace (a - i) with (String.length (load m i (a - i)) + 0) at 1 by lia. rewrite get_append_r.
        cbn [load String.append String.get]. by rewrite Hb. }
      unfold is_char_boundary. rewrite load_len. destruct (Nat.eqb_spec (a - i + S k) 0); [lia|].
      destruct (Nat.eqb_spec (a - i + S k) n); [done|]. cbn [orb].
      rewrite EL in EI. pose proof EI as EI'. cbn [load String.append] in EI'. symmetry in EI'. 
      destruct (utf8_cut cs _ _ _ HC EI' Hb) as (cs1 & cs2 & -> & E1 & E2). apply Forall_app in HC as [HC1 HC2].
      change (String (m a) (load m (S a) k ++ load m (a + S k) (i + n - (a + S k)))) with
        (load m a (S k) ++ load m (a + S k) (i + n - (a + S k))) in E2. rewrite ET in E2. symmetry in E2.
      destruct (utf8_prefix ds cs2 _ HD HC2 E2) as (cs3 & -> & E3). apply Forall_app in HC2 as [_ HC3].
      pose proof (utf8_head cs3 HC3) as HH. rewrite <- E3 in HH.
      rewrite EL. rewrite <- append_assoc.
      replace (a - i + S k) with (String.length (load m i (a - i) ++ load m a (S k)) + 0) by (rewrite append_len, !load_len; lia).
      rewrite get_append_r. replace (i + n - (a + S k)) with (S (i + n - S (a + S k))) in * by lia. cbn [load String.get] in *. by rewrite HH. }
  unfold str_slice, text_at. cbn [sl_start sl_len]. rewrite B1, B2. destruct (Nat.leb_spec (a - i) (a - i + k)); [|lia]. cbn [andb obind].
  exists (Borrowed (mkSlice (i + (a - i)) k)). split; [done|]. split.
  { cbn [as_str]. unfold text_at. cbn [sl_start sl_len]. by replace (i + (a - i)) with a by lia. }
  split; [intros _; lia|intros _; eauto].
Qed.
Print Assumptions stem_of_tendril.

(** "é€" at 100, the second character as tendril; and the same text elsewhere. *)
Definition mem_ex : memory := fun a =>
  match String.get (a - 100) (utf8 [233; 8364; 233; 8364]%N) with Some b => b | None => byte 0 end.
Example stem_of_tendril_example :
  text_at mem_ex (mkSlice 100 5) = utf8 [233; 8364]%N /\ text_at mem_ex (mkSlice 102 3) = utf8 [8364]%N /\
  tendril_to_stem mem_ex (mkSlice 100 5) (mkSlice 102 3) = Val (Borrowed (mkSlice 102 3)) /\
  tendril_to_stem mem_ex (mkSlice 100 5) (mkSlice 107 3) = Val (Owned (utf8 [8364]%N)).
Proof. vm_compute. repeat split. Qed.

(** An empty piece whose address is inside a character of the input makes the
    slicing panic.  (Empty tendrils are kept inline, so html5ever has none.) *)
Theorem stem_of_empty_tendril_refuted : exists m input t cs,
  Forall scalar cs /\ text_at m input = utf8 cs /\ text_at m t = "" /\ tendril_to_stem m input t = Panic.
Proof.
  exists mem_ex, (mkSlice 100 5), (mkSlice 101 0), [233; 8364]%N. split; [repeat constructor|]. vm_compute. repeat split.
Qed.
Print Assumptions stem_of_empty_tendril_refuted.

(** A stem is its text: all operations depend on the text only. *)
Theorem stem_is_its_text : forall m s t x,
  as_str m stem_new = "" /\
  as_str m (push_str m s x) = as_str m s ++ x /\
  as_str m (stem_into_owned m s) = as_str m s /\
  (stem_is_empty m s = true <-> as_str m s = "") /\
  stem_len m s = String.length (as_str m s) /\
  (stem_eqb m s t = true <-> as_str m s = as_str m t) /\
  (forall A (hash_str : string -> A), stem_eqb m s t = true -> stem_hash hash_str m s = stem_hash hash_str m t).
Proof.
  intros m s t x. split; [done|]. split; [by destruct s|]. split; [by destruct s|]. split; [apply String.eqb_eq|]. split; [done|].
  split; [apply String.eqb_eq|]. intros A f E. apply String.eqb_eq in E. unfold stem_hash. by rewrite E.
Qed.
Print Assumptions stem_is_its_text.

Definition slices (s : stem) : list slice := match s with Borrowed b => [b] | Owned _ => [] end.
Fixpoint content_slices (c : scontent) : list slice :=
  match c with
  | SCElem _ ats cs => (flat_map (fun a => slices (snd a)) ats ++ flat_map content_slices cs)%list
  | SCText s | SCComment s => slices s
  end.
Definition patch_slices (p : spatch) : list slice :=
  match p with
  | SInsertElement _ _ ats cs _ => (flat_map (fun a => slices (snd a)) ats ++ flat_map content_slices cs)%list
  | SInsertText _ s _ | SInsertComment _ s _ | SSetText _ s | SSetAttribute _ _ s | SOpaqueChanged _ s => slices s
  | SUpdateProps _ ch => flat_map (fun c => match sp_value c with Some s => slices s | None => [] end) ch
  | _ => []
  end.

Lemma scontent_ind' (P : scontent -> Prop) :
  (forall s, P (SCText s)) -> (forall s, P (SCComment s)) ->
  (forall tag ats cs, (forall c, In c cs -> P c) -> P (SCElem tag ats cs)) -> forall c, P c.
Proof.
  intros H1 H2 H3. fix F 1. intros [tag ats cs|s|s]; [|apply H1|apply H2]. apply H3.
  induction cs as [|c cs IH]; intros x Hx; [destruct Hx|]. destruct Hx as [<-|Hx]; [apply F|by apply IH].
Qed.

(** Patches that were made owned say what they said, borrow nothing, and so can
    be read when the page they came from is gone. *)
Theorem owned_patches : forall m p,
  patch_slices (patch_into_owned m p) = [] /\
  (forall m', read_patch m' (patch_into_owned m p) = read_patch m p).
Proof.
  assert (forall m s, slices (stem_into_owned m s) = []) as S1 by by intros m [].
  assert (forall m m' s, as_str m' (stem_into_owned m s) = as_str m s) as S2 by by intros m m' [].
  assert (forall m l, flat_map (fun a => slices (snd a)) (map (attr_into_owned m) l) = []) as A1.
  { intros m l. induction l as [|[q s] l IH]; [done|]. cbn. by rewrite S1, IH. }
  assert (forall m m' l, map (read_attr m') (map (attr_into_owned m) l) = map (read_attr m) l) as A2.
  { intros m m' l. induction l as [|[q s] l IH]; [done|]. cbn. unfold read_attr at 1 3. cbn. by rewrite S2, IH. }
  assert (forall m c, content_slices (content_into_owned m c) = []) as C1.
  { intros m c. induction c as [s|s|tag ats cs IH] using scontent_ind'; cbn; [apply S1|apply S1|]. rewrite A1. cbn [app].
    induction cs as [|c cs IHc]; [done|]. cbn. rewrite (IH c ltac:(by left)), IHc; [done|]. intros d Hd. apply IH. by right. }
  assert (forall m m' c, read_content m' (content_into_owned m c) = read_content m c) as C2.
  { intros m m' c. induction c as [s|s|tag ats cs IH] using scontent_ind'; cbn; [by rewrite S2|by rewrite S2|]. rewrite A2. f_equal.
    induction cs as [|c cs IHc]; [done|]. cbn. rewrite (IH c ltac:(by left)), IHc; [done|]. intros d Hd. apply IH. by right. }
  intros m p. split.
  - destruct p as [at_ tag ats cs slot|? s ?|? s ?|?|? s|? ? s|? ?|? ? ?|? ch|? s]; cbn; try done; try apply S1.
    + rewrite A1. cbn [app]. induction cs as [|c cs IH]; [done|]. cbn. by rewrite C1, IH.
    + induction ch as [|[k [s|]] ch IH]; [done| |]; cbn; [by rewrite S1, IH|done].
  - intros m'. destruct p as [at_ tag ats cs slot|? s ?|? s ?|?|? s|? ? s|? ?|? ? ?|? ch|? s]; cbn; try done; try (by rewrite S2).
    + rewrite A2. f_equal. induction cs as [|c cs IH]; [done|]. cbn. by rewrite C2, IH.
    + f_equal. induction ch as [|[k [s|]] ch IH]; [done| |]; cbn; unfold read_prop at 1 3; cbn; rewrite ?S2; by rewrite IH.
Qed.
Print Assumptions owned_patches.

Example owned_patches_example :
  let p := SInsertElement [0; 1] "p" [(mkQ None "" "class", Borrowed (mkSlice 102 3))] [SCText (Borrowed (mkSlice 100 2))] None in
  patch_slices p <> [] /\
  read_patch (fun _ => byte 0) (patch_into_owned mem_ex p) =
  PInsertElement [0; 1] "p" [(mkQ None "" "class", utf8 [8364]%N)] [ICText (utf8 [233]%N)] None.
Proof. vm_compute. split; [discriminate|reflexivity]. Qed.

(** Borrowed ones can be read as long as the bytes they borrow are unchanged. *)
Theorem borrowed_patches : forall m m' p,
  (forall b i, In b (patch_slices p) -> sl_start b <= i < sl_start b + sl_len b -> m i = m' i) ->
  read_patch m p = read_patch m' p.
Proof.
  intros m m'.
  assert (forall s, (forall b i, In b (slices s) -> sl_start b <= i < sl_start b + sl_len b -> m i = m' i) -> as_str m s = as_str m' s) as S1.
  { intros [b|s] HA; [|done]. cbn. apply load_agree. intros i. apply HA. by left. }
  assert (forall l, (forall b i, In b (flat_map (fun a => slices (snd a)) l) -> sl_start b <= i < sl_start b + sl_len b -> m i = m' i) ->
            map (read_attr m) l = map (read_attr m') l) as A1.
  { induction l as [|[q s] l IH]; intros HA; [done|]. cbn in *. f_equal.
    - unfold read_attr. cbn. rewrite (S1 s); [done|]. intros b i Hb. apply HA. apply in_app_iff. by left.
    - apply IH. intros b i Hb. apply HA. apply in_app_iff. by right. }
  assert (forall c, (forall b i, In b (content_slices c) -> sl_start b <= i < sl_start b + sl_len b -> m i = m' i) ->
            read_content m c = read_content m' c) as C1.
  { intros c. induction c as [s|s|tag ats cs IH] using scontent_ind'; cbn; intros HA; [by rewrite S1|by rewrite S1|].
    rewrite A1 by (intros b i Hb; apply HA; apply in_app_iff; by left). f_equal.
    assert (forall b i, In b (flat_map content_slices cs) -> sl_start b <= i < sl_start b + sl_len b -> m i = m' i) as HB
      by (intros b i Hb; apply HA; apply in_app_iff; by right).
    clear HA. induction cs as [|c cs IHc]; [done|]. cbn in *. f_equal.
    - apply IH; [by left|]. intros b i Hb. apply HB. apply in_app_iff. by left.
    - apply IHc; [intros d Hd; apply IH; by right|]. intros b i Hb. apply HB. apply in_app_iff. by right. }
  assert (forall cs, (forall b i, In b (flat_map content_slices cs) -> sl_start b <= i < sl_start b + sl_len b -> m i = m' i) ->
            map (read_content m) cs = map (read_content m') cs) as C2.
  { induction cs as [|c cs IH]; intros HA; [done|]. cbn in *. f_equal.
    - apply C1. intros b i Hb. apply HA. apply in_app_iff. by left.
    - apply IH. intros b i Hb. apply HA. apply in_app_iff. by right. }
  intros p HA. destruct p as [at_ tag ats cs slot|? s ?|? s ?|?|? s|? ? s|? ?|? ? ?|? ch|? s]; cbn in *; try done; try (by rewrite S1).
  - rewrite A1, C2; [done| |]; intros b i Hb; apply HA; apply in_app_iff; [by right|by left].
  - f_equal. induction ch as [|[k [s|]] ch IH]; [done| |]; cbn in *; f_equal.
    + unfold read_prop. cbn. rewrite S1; [done|]. intros b i Hb. apply HA. apply in_app_iff. by left.
    + apply IH. intros b i Hb. apply HA. apply in_app_iff. by right.
    + apply IH. done.
Qed.
Print Assumptions borrowed_patches.

Example borrowed_patches_example :
  let p := SSetText [0; 0] (Borrowed (mkSlice 102 3)) in
  let m' := fun a => if Nat.leb 102 a && Nat.ltb a 105 then mem_ex a else byte 33 in
  read_patch mem_ex p = PSetText [0; 0] (utf8 [8364]%N) /\ read_patch m' p = PSetText [0; 0] (utf8 [8364]%N) /\
  read_patch m' (SSetText [0; 0] (Borrowed (mkSlice 100 3))) <> read_patch mem_ex (SSetText [0; 0] (Borrowed (mkSlice 100 3))).
Proof. vm_compute. repeat split. discriminate. Qed.

(** Every patch has a form that owns its texts; it reads as the patch in any
    memory, and is left as it is by [into_owned]. *)
Fixpoint own_content (c : icontent) : scontent :=
  match c with
  | ICElem tag ats cs => SCElem tag (map (fun kv => (fst kv, Owned (snd kv))) ats) (map own_content cs)
  | ICText s => SCText (Owned s)
  | ICComment s => SCComment (Owned s)
  end.
Definition own (p : patch) : spatch :=
  match p with
  | PInsertElement at_ tag ats cs slot =>
      SInsertElement at_ tag (map (fun kv => (fst kv, Owned (snd kv))) ats) (map own_content cs) slot
  | PInsertText at_ s slot => SInsertText at_ (Owned s) slot
  | PInsertComment at_ s slot => SInsertComment at_ (Owned s) slot
  | PRemove p => SRemove p
  | PSetText p s => SSetText p (Owned s)
  | PSetAttribute p q v => SSetAttribute p q (Owned v)
  | PRemoveAttribute p q => SRemoveAttribute p q
  | PMove f t slot => SMove f t slot
  | PUpdateProps p ch => SUpdateProps p (map (fun c => mkSP (pc_name c) (option_map Owned (pc_value c))) ch)
  | POpaqueChanged p s => SOpaqueChanged p (Owned s)
  end.
Theorem owned_reads : forall m p, read_patch m (own p) = p /\ patch_into_owned m (own p) = own p.
Proof.
  intros m.
  assert (forall l : attrs, map (read_attr m) (map (fun kv => (fst kv, Owned (snd kv))) l) = l) as A1.
  { induction l as [|[q s] l IH]; [done|]. cbn. by rewrite IH. }
  assert (forall l : attrs, map (attr_into_owned m) (map (fun kv => (fst kv, Owned (snd kv))) l) = map (fun kv => (fst kv, Owned (snd kv))) l) as A2.
  { induction l as [|[q s] l IH]; [done|]. cbn. by rewrite IH. }
  assert (forall c, read_content m (own_content c) = c /\ content_into_owned m (own_content c) = own_content c) as C.
  { fix IH 1. intros [tag ats cs|s|s]; cbn; [|done|done]. rewrite A1, A2.
    assert (map (read_content m) (map own_content cs) = cs /\ map (content_into_owned m) (map own_content cs) = map own_content cs) as [-> ->].
    { induction cs as [|c cs [IH1 IH2]]; [done|]. cbn. destruct (IH c) as [-> ->]. by rewrite IH1, IH2. }
    done. }
  assert (forall cs, map (read_content m) (map own_content cs) = cs /\ map (content_into_owned m) (map own_content cs) = map own_content cs) as CS.
  { induction cs as [|c cs [IH1 IH2]]; [done|]. cbn. destruct (C c) as [-> ->]. by rewrite IH1, IH2. }
  intros p. destruct p as [at_ tag ats cs slot|? s ?|? s ?|?|? s|? ? s|? ?|? ? ?|? ch|? s]; cbn; try done.
  - rewrite A1, A2. by destruct (CS cs) as [-> ->].
  - split; f_equal; induction ch as [|[k [v|]] ch IH]; try done; cbn; by rewrite IH.
Qed.
Print Assumptions owned_reads.

Example owned_reads_example :
  read_patch mem_ex (own (PUpdateProps [0] [mkPC PText None; mkPC PText (Some "")])) = PUpdateProps [0] [mkPC PText None; mkPC PText (Some "")] /\
  own (PInsertElement [0; 1] "p" [] [ICComment "x"] None) = SInsertElement [0; 1] "p" [] [SCComment (Owned "x")] None.
Proof. by vm_compute. Qed.
