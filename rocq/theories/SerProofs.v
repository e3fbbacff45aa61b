(** Unique readability of the serialized form. *)
From stdpp Require Import list_numbers.
From Verif Require Import Base Arena Dom ArenaProofs EscProofs DomTree BuildProofs.
Local Open Scope string_scope.

(** ** Strings *)

Lemma slen_app x y : String.length (x ++ y) = String.length x + String.length y.
Proof. induction x as [|c x IH]; cbn; [done|]. by rewrite IH. Qed.

Lemma sapp_inv_head x y z : x ++ y = x ++ z -> y = z.
Proof. induction x as [|c x IH]; cbn; [done|]. intros E. injection E as E. auto. Qed.

Lemma sapp_prefix : forall x y a b, x ++ a = y ++ b -> String.length x <= String.length y ->
  exists q, y = x ++ q.
Proof.
  induction x as [|c x IH]; intros y a b E L; [by exists y|].
  destruct y as [|d y]; cbn in L; [lia|]. cbn in E. injection E as -> E.
  destruct (IH y a b E ltac:(lia)) as (q & ->). by exists q.
Qed.

(** Does the string begin with one of the characters (or is it empty)? *)
Definition begins (P : ascii -> Prop) (s : string) : Prop :=
  match s with EmptyString => True | String c _ => P c end.

(** Two readings up to the first character in [P]. *)
Lemma span_inj (P : ascii -> Prop) : forall s1 s2 r1 r2,
  (forall c, occurs c s1 -> ~ P c) -> (forall c, occurs c s2 -> ~ P c) ->
  begins P r1 -> begins P r2 -> s1 ++ r1 = s2 ++ r2 -> s1 = s2 /\ r1 = r2.
Proof.
  induction s1 as [|c s1 IH]; intros s2 r1 r2 H1 H2 B1 B2 E.
  - destruct s2 as [|d s2]; [done|]. cbn in E. subst r1. exfalso. apply (H2 d); [by left|done].
  - destruct s2 as [|d s2].
    + cbn in E. subst r2. exfalso. apply (H1 c); [by left|done].
    + cbn in E. injection E as -> E. destruct (IH s2 r1 r2) as [-> ->]; try done.
      * intros x Hx. apply H1. by right.
      * intros x Hx. apply H2. by right.
Qed.
Lemma span_char (x : ascii) s1 s2 r1 r2 :
  ~ occurs x s1 -> ~ occurs x s2 -> s1 ++ String x r1 = s2 ++ String x r2 -> s1 = s2 /\ r1 = r2.
Proof.
  intros H1 H2 E. destruct (span_inj (fun c => c = x) s1 s2 (String x r1) (String x r2)) as [-> E']; [| |done|done|done|].
  - by intros c Hc ->.
  - by intros c Hc ->.
  - by injection E' as ->.
Qed.

(** The word occurs in [s ++ w] only at the end. *)
Definition only_last (w s : string) : Prop := forall p q, s ++ w = p ++ w ++ q -> q = "".

Lemma only_last_tail w c s : only_last w (String c s) -> only_last w s.
Proof. intros O p q E. apply (O (String c p) q). cbn. by rewrite E. Qed.

Lemma only_last_inj w : forall s1 s2 r1 r2, only_last w s1 -> only_last w s2 ->
  s1 ++ w ++ r1 = s2 ++ w ++ r2 -> s1 = s2 /\ r1 = r2.
Proof.
  assert (forall c s r1 r2, only_last w (String c s) -> w ++ r1 = String c s ++ w ++ r2 -> False) as K.
  { intros c s r1 r2 O E. rewrite <- sapp_assoc in E.
    destruct (sapp_prefix w (String c s ++ w) r1 r2 E) as (q & Hq).
    - rewrite slen_app. cbn. lia.
    - pose proof (O "" q Hq) as ->. rewrite sapp_nil in Hq.
      apply (f_equal String.length) in Hq. rewrite slen_app in Hq. cbn in Hq. lia. }
  induction s1 as [|c s1 IH]; intros s2 r1 r2 O1 O2 E.
  - destruct s2 as [|d s2]; [|by eapply K in E]. split; [done|]. by eapply sapp_inv_head.
  - destruct s2 as [|d s2]; [symmetry in E; by eapply K in E|]. cbn in E. injection E as -> E.
    destruct (IH s2 r1 r2) as [-> ->]; [by eapply only_last_tail|by eapply only_last_tail|done|done].
Qed.

(** ** Readable trees *)

Definition full_name (q : qname) : string :=
  match q_prefix q with Some p => p ++ ":" | None => "" end ++ q_local q.

(** Tag names as a tokenizer reads them: not empty, no space or [>], and not
    starting like a comment or an end tag. *)
Definition tag_ok (t : string) : Prop :=
  match t with
  | "" => False
  | String c _ => c <> "!"%char /\ c <> "/"%char
  end /\ ~ occurs " " t /\ ~ occurs ">" t.
Definition attr_ok (kv : attr) : Prop := ~ occurs "=" (full_name (fst kv)).
Definition comment_ok (s : string) : Prop := only_last "-->" s.
Definition raw_ok (t s : string) : Prop := only_last ("</" ++ t) s.

Definition is_text (t : htree) : Prop := match t with HText _ => True | _ => False end.
Definition is_text_list (l : list htree) : Prop := match l with t :: _ => is_text t | [] => False end.

(** No empty and no adjacent texts; void elements are empty; a raw text element
    is empty or has one text, which does not contain its end tag. *)
Inductive readable : htree -> Prop :=
| rd_text s : s <> "" -> readable (HText s)
| rd_comment s : comment_ok s -> readable (HComment s)
| rd_void t ns ats : tag_ok t -> (forall kv, kv ∈ ats -> attr_ok kv) -> is_void_element t = true ->
    readable (HElem t ns ats [])
| rd_raw_empty t ns ats : tag_ok t -> (forall kv, kv ∈ ats -> attr_ok kv) ->
    is_void_element t = false -> is_raw_text_element t = true -> readable (HElem t ns ats [])
| rd_raw t ns ats s : tag_ok t -> (forall kv, kv ∈ ats -> attr_ok kv) ->
    is_void_element t = false -> is_raw_text_element t = true -> s <> "" -> raw_ok t s ->
    readable (HElem t ns ats [HText s])
| rd_elem t ns ats cs : tag_ok t -> (forall kv, kv ∈ ats -> attr_ok kv) ->
    is_void_element t = false -> is_raw_text_element t = false -> readables cs ->
    readable (HElem t ns ats cs)
with readables : list htree -> Prop :=
| rds_nil : readables []
| rds_cons t ts : readable t -> readables ts -> (is_text t -> ~ is_text_list ts) -> readables (t :: ts).

(** What the serialized form can tell: no namespaces, attribute names as
    written. *)
Fixpoint visible (t : htree) : htree :=
  match t with
  | HElem tag _ ats cs =>
      HElem tag NsHtml (map (fun kv => (mkQ None "" (full_name (fst kv)), snd kv)) ats) (map visible cs)
  | _ => t
  end.

(** ** Pieces *)

Lemma ser_attr_cons kv l : ser_attrs (kv :: l) =
  String " " (full_name (fst kv) ++ String "=" (quote ++ escape_attr (snd kv) ++ quote ++ ser_attrs l)).
Proof.
  destruct kv as [q v]. unfold ser_attrs. cbn [map]. 
  assert (forall x l, String.concat "" (x :: l) = x ++ String.concat "" l) as ->.
  { intros x k. destruct k as [|y k]; cbn; [by rewrite sapp_nil|done]. }
  unfold ser_attr. cbn [fst snd]. unfold full_name. cbn. rewrite !sapp_assoc. cbn. rewrite ?sapp_assoc. done.
Qed.

Lemma escape_attr_inj s t : escape_attr s = escape_attr t -> s = t.
Proof. intros E. by rewrite <- (decode_escape_attr s), <- (decode_escape_attr t), E. Qed.

Lemma attrs_inj : forall l k r1 r2,
  (forall kv, kv ∈ l -> attr_ok kv) -> (forall kv, kv ∈ k -> attr_ok kv) ->
  ser_attrs l ++ String ">" r1 = ser_attrs k ++ String ">" r2 ->
  map (fun kv => (mkQ None "" (full_name (fst kv)), snd kv)) l =
  map (fun kv => (mkQ None "" (full_name (fst kv)), snd kv)) k /\ r1 = r2.
Proof.
  induction l as [|x l IH]; intros k r1 r2 Hl Hk E.
  - destruct k as [|y k]; [cbn in E; by injection E as ->|]. rewrite ser_attr_cons in E. cbn in E. done.
  - destruct k as [|y k]; [rewrite ser_attr_cons in E; done|].
    rewrite !ser_attr_cons in E. cbn [append] in E. injection E as E.
    rewrite !sapp_assoc in E. cbn [append] in E.
    apply span_char in E as [En E]; [|by apply Hl; left|by apply Hk; left].
    unfold quote in E. cbn [append] in E. injection E as E. rewrite !sapp_assoc in E. cbn [append] in E.
    apply span_char in E as [Ev E];
      [|by apply escape_attr_no_special; right; right|by apply escape_attr_no_special; right; right].
    apply escape_attr_inj in Ev.
    destruct (IH k r1 r2) as [Em ->]; [intros; apply Hl; by right|intros; apply Hk; by right|done|].
    cbn [map]. by rewrite En, Ev, Em.
Qed.

Lemma attrs_begin l r : begins (fun c => c = " "%char \/ c = ">"%char) (ser_attrs l ++ String ">" r).
Proof. destruct l as [|x l]; [by right|]. rewrite ser_attr_cons. by left. Qed.

Lemma open_tag_inj t ats r1 t' ats' r2 :
  tag_ok t -> tag_ok t' ->
  (forall kv, kv ∈ ats -> attr_ok kv) -> (forall kv, kv ∈ ats' -> attr_ok kv) ->
  t ++ ser_attrs ats ++ String ">" r1 = t' ++ ser_attrs ats' ++ String ">" r2 ->
  t = t' /\ map (fun kv => (mkQ None "" (full_name (fst kv)), snd kv)) ats =
            map (fun kv => (mkQ None "" (full_name (fst kv)), snd kv)) ats' /\ r1 = r2.
Proof.
  intros (_ & T1 & T2) (_ & T1' & T2') A A' E.
  apply (span_inj (fun c => c = " "%char \/ c = ">"%char)) in E as [-> E];
    [|by intros c Hc [->| ->]|by intros c Hc [->| ->]|apply attrs_begin|apply attrs_begin].
  split; [done|]. by apply attrs_inj.
Qed.

(** What may follow a list of nodes. *)
Definition stop (r : string) : Prop := r = "" \/ exists r', r = "</" ++ r'.

Lemma escape_text_begin s : s <> "" -> exists c r, escape_text s = String c r /\ c <> "<"%char.
Proof.
  destruct s as [|c s]; [done|]. intros _. unfold escape_text. cbn [str_flat_map]. unfold esc_text_char.
  destruct (Ascii.eqb_spec c "&"); [by do 2 eexists|].
  destruct (Ascii.eqb_spec c "<"); [by do 2 eexists|]. by do 2 eexists.
Qed.

Definition lead (t : htree) (s : string) : Prop :=
  match t with
  | HText _ => exists c r, s = String c r /\ c <> "<"%char
  | HComment _ => exists r, s = String "<" (String "!" r)
  | HElem _ _ _ _ => exists c r, s = String "<" (String c r) /\ c <> "!"%char /\ c <> "/"%char
  end.

Lemma ser_lead t r : readable t -> lead t (ser_t false t ++ r).
Proof.
  destruct 1; cbn [lead ser_t].
  - destruct (escape_text_begin s H) as (c & k & -> & Hc). by exists c, (k ++ r).
  - by eexists.
  - destruct H as [Ht _]. destruct t as [|c t]; [done|]. rewrite H1. by exists c; eexists.
  - destruct H as [Ht _]. destruct t as [|c t]; [done|]. rewrite H1. by exists c; eexists.
  - destruct H as [Ht _]. destruct t as [|c t]; [done|]. rewrite H1. by exists c; eexists.
  - destruct H as [Ht _]. destruct t as [|c t]; [done|]. rewrite H1. by exists c; eexists.
Qed.

Lemma ser_begin ts r : readables ts -> ~ is_text_list ts -> stop r ->
  begins (fun c => c = "<"%char) (ser_ts false ts ++ r).
Proof.
  intros R N S. destruct R as [|t ts Rt Rts Nt].
  - destruct S as [->|[r' ->]]; done.
  - cbn [ser_ts]. rewrite sapp_assoc. pose proof (ser_lead t (ser_ts false ts ++ r) Rt) as L.
    destruct t; cbn [lead is_text_list is_text] in L, N; [| done|].
    + by destruct L as (c & k & -> & _).
    + by destruct L as (k & ->).
Qed.

Lemma stop_lead t r s : stop r -> lead t s -> r <> s.
Proof.
  intros [->|[r' ->]] L E; subst s; destruct t; cbn in L.
  - by destruct L as (c & k & E & _).
  - by destruct L as (c & k & E & _).
  - by destruct L as (k & E).
  - destruct L as (c & k & E & _ & Hc). congruence.
  - destruct L as (c & k & E & Hc). congruence.
  - destruct L as (k & E). congruence.
Qed.

(** ** The theorem on trees *)

Lemma ser_elem_open raw t ns ats cs r :
  ser_t raw (HElem t ns ats cs) ++ r =
  String "<" (t ++ ser_attrs ats ++ String ">"
    (if is_void_element t then r else ser_ts (is_raw_text_element t) cs ++ "</" ++ t ++ String ">" r)).
Proof.
  rewrite ser_t_elem. destruct (is_void_element t); cbn; rewrite !sapp_assoc; cbn; rewrite ?sapp_assoc; cbn; rewrite ?sapp_assoc; done.
Qed.

Lemma elem_inv t ns ats cs : readable (HElem t ns ats cs) ->
  tag_ok t /\ (forall kv, kv ∈ ats -> attr_ok kv) /\
  ((is_void_element t = true /\ cs = []) \/
   (is_void_element t = false /\ is_raw_text_element t = true /\
      (cs = [] \/ exists s, cs = [HText s] /\ s <> "" /\ raw_ok t s)) \/
   (is_void_element t = false /\ is_raw_text_element t = false /\ readables cs)).
Proof.
  inversion 1; subst; split_and!; try done.
  - by left.
  - right; left. split_and!; try done. by left.
  - right; left. split_and!; try done. right. by eexists.
  - by right; right.
Qed.

Lemma ser_inj_fuel n : forall ts us r1 r2, hdepths ts < n -> readables ts -> readables us -> stop r1 -> stop r2 ->
  ser_ts false ts ++ r1 = ser_ts false us ++ r2 -> map visible ts = map visible us /\ r1 = r2.
Proof.
  induction n as [|n IHn]; [lia|]. induction ts as [|t ts IH]; intros us r1 r2 D R1 R2 S1 S2 E.
  - destruct us as [|u us]; [done|]. cbn [ser_ts] in E. rewrite sapp_assoc in E. exfalso.
    inversion R2; subst. eapply stop_lead; [|by apply ser_lead|exact E]. done.
  - inversion R1 as [|? ? Rt Rts Nt]; subst. cbn [ser_ts] in E. rewrite sapp_assoc in E.
    destruct us as [|u us].
    { exfalso. symmetry in E. eapply stop_lead; [|by apply ser_lead|exact E]. done. }
    inversion R2 as [|? ? Ru Rus Nu]; subst. cbn [ser_ts] in E. rewrite sapp_assoc in E.
    assert (hdepth t < S n /\ hdepths ts < S n) as [Dt Dts] by (unfold hdepths in *; cbn in D; lia).
    assert (ser_ts false ts ++ r1 = ser_ts false us ++ r2 -> visible t = visible u ->
            map visible (t :: ts) = map visible (u :: us) /\ r1 = r2) as K.
    { intros E' Ev. destruct (IH us r1 r2) as [Em ->]; [done..|]. cbn [map]. by rewrite Ev, Em. }
    pose proof (ser_lead t (ser_ts false ts ++ r1) Rt) as L1.
    pose proof (ser_lead u (ser_ts false us ++ r2) Ru) as L2. rewrite <- E in L2.
    destruct t as [tg ns ats cs|s|s], u as [tg' ns' ats' cs'|s'|s']; cbn [lead] in L1, L2;
      try (exfalso; destruct_and?; repeat match goal with H : exists _, _ |- _ => destruct H as [? H] end;
           destruct_and?; congruence).
    + clear L1 L2. rewrite !ser_elem_open in E. injection E as E.
      apply elem_inv in Rt as (T & A & Rt). apply elem_inv in Ru as (T' & A' & Ru).
      apply open_tag_inj in E as (<- & Ea & E); try done.
      destruct Rt as [[V ->]|[(V & W & Rt)|(V & W & Rt)]]; rewrite V in E, Ru.
      * destruct Ru as [[_ ->]|[(? & _)|(? & _)]]; try done. apply K; [done|]. cbn. by rewrite Ea.
      * destruct Ru as [[? _]|[(_ & _ & Ru)|(_ & ? & _)]]; [done| |congruence]. rewrite W in E.
        assert (forall k, raw_ok tg k \/ k = "" -> only_last ("</" ++ tg) k) as O.
        { intros k [Hk| ->]; [done|]. intros p q Eq.
          apply (f_equal String.length) in Eq. cbn [append] in Eq. rewrite !slen_app in Eq. cbn in Eq.
          rewrite ?slen_app in Eq. destruct q; [done|]. cbn in Eq. lia. }
        assert (exists k, ser_ts true cs = k /\ (raw_ok tg k \/ k = "") /\
                  (cs = [] /\ k = "" \/ cs = [HText k] /\ k <> "")) as (k & Ek & Ok & Ck).
        { destruct Rt as [->|(k & -> & Hk & Ok)]; [exists ""; naive_solver|].
          exists k. cbn. rewrite sapp_nil. naive_solver. }
        assert (exists k, ser_ts true cs' = k /\ (raw_ok tg k \/ k = "") /\
                  (cs' = [] /\ k = "" \/ cs' = [HText k] /\ k <> "")) as (k' & Ek' & Ok' & Ck').
        { destruct Ru as [->|(k0 & -> & Hk & Okk)]; [exists ""; naive_solver|].
          exists k0. cbn. rewrite sapp_nil. naive_solver. }
        rewrite Ek, Ek' in E. 
        change (k ++ ("</" ++ tg) ++ String ">" (ser_ts false ts ++ r1) =
                k' ++ ("</" ++ tg) ++ String ">" (ser_ts false us ++ r2)) in E.
        apply only_last_inj in E as [<- E]; [|by apply O..]. injection E as E.
        apply K; [done|]. cbn. rewrite Ea. f_equal.
        destruct Ck as [[-> ->]|[-> Hk]], Ck' as [[-> Hk']|[-> Hk']]; done.
      * destruct Ru as [[? _]|[(_ & ? & _)|(_ & _ & Ru)]]; [done|congruence|]. rewrite W in E.
        apply IHn in E as [Em E]; [| |done|done|by right; eexists|by right; eexists].
        -- injection E as E. apply sapp_inv_head in E. injection E as E. apply K; [done|].
           cbn. by rewrite Ea, Em.
        -- cbn [hdepth] in Dt. unfold hdepths. lia.
    + clear L1 L2. cbn [ser_t] in E.
      apply (span_inj (fun c => c = "<"%char)) in E as [Es E].
      * apply K; [done|]. apply escape_text_inj in Es. by rewrite Es.
      * intros c Hc ->. by apply escape_text_no_lt in Hc.
      * intros c Hc ->. by apply escape_text_no_lt in Hc.
      * apply ser_begin; [done| |done]. by apply Nt.
      * apply ser_begin; [done| |done]. by apply Nu.
    + clear L1 L2. cbn [ser_t] in E. rewrite ?sapp_assoc in E. apply sapp_inv_head in E.
      inversion Rt; subst. inversion Ru; subst. rewrite ?sapp_assoc in E.
      apply only_last_inj in E as [-> E]; [|done..]. by apply K.
Qed.

Lemma ser_inj ts us : readables ts -> readables us -> ser_ts false ts = ser_ts false us ->
  map visible ts = map visible us.
Proof.
  intros R1 R2 E. apply (ser_inj_fuel (S (hdepths ts)) ts us "" ""); [lia|done|done|by left|by left|].
  by rewrite E.
Qed.
