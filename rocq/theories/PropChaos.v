(** C84: what the chaos mode of the structured fuzz target generates. *)
From Coq Require Import NArith Ascii.
From Verif Require Import Base Inputs Chaos.
Local Open Scope string_scope.
Local Open Scope N_scope.
Local Open Scope list_scope.

(** What the crate arbitrary promises of [int_in_range]: a number of the range,
    always (also when the data are used up). *)
Definition answers {E} (int_in_range : N -> N -> E -> option (N * E)) : Prop :=
  forall lo hi u, lo <= hi -> exists x u', int_in_range lo hi u = Some (x, u') /\ lo <= x <= hi.

Definition alpha (c : N) : Prop := 97 <= c <= 122 \/ 65 <= c <= 90.
Definition alnum (c : N) : Prop := alpha c \/ 48 <= c <= 57.
Definition name_char (c : N) : Prop := alnum c \/ c = 45 \/ c = 95 \/ c = 46 \/ c = 58.
Definition value_ok (c : N) : Prop := alnum c \/ c = 32 \/ c = 45 \/ c = 95 \/ c = 47 \/ c = 46.

Definition tag_ok (t : text) : Prop :=
  exists c l, t = c :: l /\ (alpha c \/ c = 95) /\ Forall name_char l /\ (length t <= 20)%nat.
Definition attr_ok (a : cattr) : Prop :=
  (exists c l, ca_name a = c :: l /\ alpha c /\ Forall name_char l /\ (length (ca_name a) <= 16)%nat) /\
  forall v, ca_value a = Some v -> Forall value_ok v /\ (length v <= 50)%nat.

(** The nodes that can be generated. *)
Fixpoint made (n : cnode) : Prop :=
  match n with
  | CText t | CComment t => Forall alnum t /\ (length t <= 100)%nat
  | CElem tag ats cs void =>
      tag_ok tag /\ Forall attr_ok ats /\ (length ats <= 5)%nat /\ (length cs <= 4)%nat /\ (void = true -> cs = []) /\
      (In (lowered tag) void_tags -> void = true) /\
      (fix all (l : list cnode) : Prop := match l with [] => True | c :: l' => made c /\ all l' end) cs
  end.
Lemma made_all cs : (fix all (l : list cnode) : Prop := match l with [] => True | c :: l' => made c /\ all l' end) cs <-> Forall made cs.
Proof.
  induction cs as [|c cs IH]; split; intros K; [constructor|done| |].
  - destruct K as [K1 K2]. constructor; [done|]. by apply IH.
  - inversion K; subst. split; [done|]. by apply IH.
Qed.

Definition in_range (lo hi c : N) : bool := (lo <=? c) && (c <=? hi).
Definition name_charb (c : N) : bool :=
  in_range 97 122 c || in_range 65 90 c || in_range 48 57 c || existsb (N.eqb c) [45; 95; 46; 58].
Lemma names_check l : forallb name_charb l = true -> Forall name_char l.
Proof.
  intros K. rewrite forallb_forall in K. apply List.Forall_forall. intros c Hc. specialize (K c Hc). revert K.
  unfold name_charb, in_range, name_char, alnum, alpha. cbn [existsb].
  rewrite !orb_true_iff, !andb_true_iff, !N.leb_le, !N.eqb_eq. intros K. destruct K as [[[K|K]|K]|[K|[K|[K|[K|K]]]]]; try done; lia.
Qed.
Lemma alpha_check c : in_range 97 122 c = true -> alpha c.
Proof. unfold in_range, alpha. rewrite andb_true_iff, !N.leb_le. lia. Qed.

Section Post.
  Context {E : Type}.
  Variable iir : N -> N -> @gen E N.
  Definition post {A} (P : A -> Prop) (g : @gen E A) : Prop := forall u x u', g u = Some (x, u') -> P x.

  Lemma post_ret {A} (P : A -> Prop) x : P x -> post P (gret x).
  Proof using Type. intros Hp u y u' [= <- _]. done. Qed.
  Lemma post_bind {A B} (Q : A -> Prop) (P : B -> Prop) g k : post Q g -> (forall x, Q x -> post P (k x)) -> post P (gbind g k).
  Proof using Type.
    intros Hg Hk u y u'. unfold gbind. destruct (g u) as [[x u1]|] eqn:Eg; [|done]. intros Ey. by eapply Hk; [eapply Hg|].
  Qed.
  Lemma post_repeat {A} (P : A -> Prop) g : post P g -> forall n, post (fun l => Forall P l /\ length l = n) (grepeat n g).
  Proof using Type.
    intros Hg n. induction n as [|n IH]; cbn [grepeat]; [by apply post_ret|].
    eapply post_bind; [exact Hg|]. intros x Hx; cbv beta in Hx. eapply post_bind; [exact IH|]. intros l [Hl Hn].
    apply post_ret. split; [by constructor|]. cbn. by rewrite Hn.
  Qed.
  Lemma post_weaken {A} (P Q : A -> Prop) g : post P g -> (forall x, P x -> Q x) -> post Q g.
  Proof using Type. intros Hp HQ u x u' Ex. apply HQ. by eapply Hp. Qed.

  Hypothesis HA : answers iir.
  Lemma post_range lo hi : lo <= hi -> post (fun x => lo <= x <= hi) (iir lo hi).
  Proof using HA. intros Hl u x u' Ex. destruct (HA lo hi u Hl) as (y & v & Ey & Hy). rewrite Ex in Ey. by injection Ey as -> _. Qed.
  Lemma post_letter b : b = 97 \/ b = 65 -> post alpha (letter iir b).
  Proof using HA. intros Hb. eapply post_bind; [by apply post_range|]. intros x Hx; cbv beta in Hx. apply post_ret. unfold alpha. lia. Qed.
  Lemma post_digit : post (fun c => 48 <= c <= 57) (digit iir).
  Proof using HA. eapply post_bind; [by apply post_range|]. intros x Hx; cbv beta in Hx. apply post_ret. lia. Qed.
  Lemma post_count lo hi : lo <= hi -> post (fun n => (N.to_nat lo <= n <= N.to_nat hi)%nat) (count iir lo hi).
  Proof using HA. intros Hl. eapply post_bind; [by apply post_range|]. intros x Hx; cbv beta in Hx. apply post_ret. lia. Qed.

  Lemma post_text_char : post alnum (text_char iir).
  Proof using HA.
    unfold text_char. eapply post_bind; [by apply post_range|]. intros x Hx; cbv beta in Hx.
    destruct (x <=? 25); [eapply post_weaken; [apply post_letter; by left|]; by left|].
    destruct (x <=? 51); [eapply post_weaken; [apply post_letter; by right|]; by left|].
    intros u y u'. destruct (HA 52 61 u ltac:(lia)) as (z & v & -> & _). intros Ey. right. by eapply post_digit.
  Qed.
  Lemma post_rest k k' k'' : name_char k -> name_char k' -> name_char k'' -> forall b, name_char b ->
    post name_char (gbind (iir 0 65) (fun x => if x <=? 25 then letter iir 97 else if x <=? 51 then letter iir 65 else if x <=? 61 then digit iir
      else gret (if x =? 62 then k else if x =? 63 then k' else if x =? 64 then k'' else b))).
  Proof using HA.
    intros H1 H2 H3 b H4. eapply post_bind; [by apply post_range|]. intros x Hx; cbv beta in Hx.
    destruct (x <=? 25); [eapply post_weaken; [apply post_letter; by left|]; by do 2 left|].
    destruct (x <=? 51); [eapply post_weaken; [apply post_letter; by right|]; by do 2 left|].
    destruct (x <=? 61); [eapply post_weaken; [apply post_digit|]; intros; left; by right|].
    apply post_ret. by repeat case_match.
  Qed.
  Lemma post_tag : post tag_ok (arb_tag iir).
  Proof using HA.
    unfold arb_tag. eapply post_bind; [by apply post_count|]. intros n Hn; cbv beta in Hn.
    eapply (post_bind (fun c => alpha c \/ c = 95)).
    { unfold tag_first. eapply post_bind; [by apply post_range|]. intros x Hx; cbv beta in Hx.
      destruct (x <=? 25); [eapply post_weaken; [apply post_letter; by left|]; by left|].
      destruct (x <=? 51); [eapply post_weaken; [apply post_letter; by right|]; by left|]. apply post_ret. by right. }
    intros c Hc. eapply post_bind; [apply (post_repeat name_char)|].
    { apply post_rest; unfold name_char; lia. }
    intros l [Hl Hlen]. apply post_ret. exists c, l. repeat split; try done. cbn [length]. lia.
  Qed.
  Lemma post_attr_name : post (fun t => exists c l, t = c :: l /\ alpha c /\ Forall name_char l /\ (length t <= 16)%nat) (arb_attr_name iir).
  Proof using HA.
    unfold arb_attr_name. eapply (post_bind (fun _ => True)); [done|]. intros [|] _.
    - eapply post_bind; [by apply post_count|]. intros n Hn; cbv beta in Hn. eapply post_bind; [apply (post_repeat name_char)|].
      { unfold data_char. eapply post_bind; [by apply post_range|]. intros x Hx; cbv beta in Hx.
        destruct (x <=? 25); [eapply post_weaken; [apply post_letter; by left|]; by do 2 left|].
        apply post_ret. unfold name_char. destruct (x =? 26); lia. }
      intros l [Hl Hlen]. apply post_ret. exists 100, (str "ata-" ++ l). split; [done|]. split; [unfold alpha; lia|]. split.
      + apply Forall_app. split; [|done]. by apply names_check.
      + rewrite app_length. cbn. lia.
    - eapply (post_bind (fun _ => True)); [done|]. intros [|] _.
      + unfold choose. eapply post_bind; [apply post_range; cbn; lia|]. intros i Hi; cbv beta in Hi. apply post_ret.
        assert (N.to_nat i < 10)%nat as Hi' by (cbn in Hi; lia). revert Hi'. generalize (N.to_nat i). intros k Hk.
        do 10 (destruct k as [|k]; [eexists _, _; split; [reflexivity|]; split; [by apply alpha_check|]; split;
          [by apply names_check|cbn; lia]|]). lia.
      + eapply post_bind; [by apply post_count|]. intros n Hn; cbv beta in Hn. eapply (post_bind alpha).
        { unfold attr_first. eapply post_bind; [by apply post_range|]. intros x Hx; cbv beta in Hx.
          destruct (x <=? 25); apply post_letter; [by left|by right]. }
        intros c Hc. eapply post_bind; [apply (post_repeat name_char)|].
        { apply post_rest; unfold name_char; lia. }
        intros l [Hl Hlen]. apply post_ret. exists c, l. repeat split; try done. cbn [length]. lia.
  Qed.
  Lemma post_value : post (fun v => Forall value_ok v /\ (length v <= 50)%nat) (arb_attr_value iir).
  Proof using HA.
    unfold arb_attr_value. eapply post_bind; [by apply post_count|]. intros n Hn; cbv beta in Hn. eapply post_weaken; [apply (post_repeat value_ok)|].
    - unfold value_char. eapply post_bind; [by apply post_range|]. intros x Hx; cbv beta in Hx.
      destruct (x <=? 25); [eapply post_weaken; [apply post_letter; by left|]; by do 2 left|].
      destruct (x <=? 35); [eapply post_weaken; [apply post_digit|]; intros; left; by right|].
      apply post_ret. unfold value_ok. repeat case_match; lia.
    - intros l [Hl Hlen]. split; [done|lia].
  Qed.
  Lemma post_attr ab : post attr_ok (arb_attr iir ab).
  Proof using HA.
    unfold arb_attr. eapply post_bind; [apply post_attr_name|]. intros t Ht. eapply (post_bind (fun _ => True)); [done|]. intros [|] _.
    - eapply post_bind; [apply post_value|]. intros v Hv. apply post_ret. split; [done|]. by intros w [= <-].
    - apply post_ret. by split.
  Qed.

  (** The texts (and comments) that the chaos mode makes have letters and digits
      only: the arm with the digits comes before those with spaces, markup and
      other characters, and its guard holds. *)
  Theorem chaos_texts : post (fun t => Forall alnum t /\ (length t <= 100)%nat) (arb_text iir).
  Proof using HA.
    unfold arb_text. eapply post_bind; [by apply post_count|]. intros n Hn; cbv beta in Hn. eapply post_weaken; [apply (post_repeat alnum), post_text_char|].
    intros l [Hl Hlen]. split; [done|lia].
  Qed.

  Lemma text_eqb_spec s : forall t, text_eqb s t = true <-> s = t.
  Proof using Type.
    induction s as [|x s IH]; intros [|y t]; cbn [text_eqb]; try done.
    rewrite andb_true_iff, N.eqb_eq, IH. split; [by intros [-> ->]|by intros [= -> ->]].
  Qed.

  Theorem chaos_nodes : forall ab av fuel, post made (arb_node iir ab av fuel).
  Proof using HA.
    intros ab av fuel. induction fuel as [|f IH]; [done|]. cbn [arb_node].
    eapply (post_bind (fun _ => True)); [done|]. intros k _. destruct (k =? 0).
    { eapply post_bind; [apply chaos_texts|]. intros t Ht. by apply post_ret. }
    destruct (k =? 1).
    { eapply post_bind; [apply chaos_texts|]. intros t Ht. by apply post_ret. }
    eapply post_bind; [apply post_tag|]. intros tag Htag.
    eapply post_bind; [by apply post_count|]. intros n Hn; cbv beta in Hn.
    eapply post_bind; [apply (post_repeat attr_ok), post_attr|]. intros ats [Hats Hlen].
    eapply (post_bind (fun v => In (lowered tag) void_tags -> v = true)).
    { destruct (existsb (text_eqb (lowered tag)) void_tags) eqn:Ev; [by apply post_ret|].
      intros u x u' _ Hin. assert (existsb (text_eqb (lowered tag)) void_tags = true) as K; [|congruence].
      apply existsb_exists. exists (lowered tag). split; [done|]. by apply text_eqb_spec. }
    intros [|] Hv.
    - apply post_ret. cbn [made]. repeat split; try done; cbn [length] in *; lia.
    - eapply post_bind; [by apply post_count|]. intros m Hm; cbv beta in Hm. eapply post_bind; [apply (post_repeat made), IH|].
      intros cs [Hcs Hl]. apply post_ret. cbn [made]. repeat split; try done; [lia|lia|]. by apply made_all.
  Qed.
End Post.
Print Assumptions chaos_texts.
Print Assumptions chaos_nodes.

(** ** Pages *)

(** All attributes of a node and of those in it. *)
Fixpoint all_attrs (n : cnode) : list cattr :=
  match n with CElem _ ats cs _ => ats ++ flat_map all_attrs cs | _ => [] end.
Fixpoint cnode_ind' (P : cnode -> Prop) (Ht : forall t, P (CText t)) (Hc : forall t, P (CComment t))
    (He : forall tag ats cs v, Forall P cs -> P (CElem tag ats cs v)) (n : cnode) : P n :=
  match n with
  | CText t => Ht t
  | CComment t => Hc t
  | CElem tag ats cs v =>
      He tag ats cs v ((fix go (l : list cnode) : Forall P l :=
        match l with [] => List.Forall_nil _ | c :: l' => List.Forall_cons _ _ _ (cnode_ind' P Ht Hc He c) (go l') end) cs)
  end.

Lemma all_attrs_ok n : made n -> Forall attr_ok (all_attrs n).
Proof.
  induction n as [t|t|tag ats cs v IH] using cnode_ind'; cbn [made all_attrs]; [done|done|].
  intros (_ & Ha & _ & _ & _ & _ & Hm). apply made_all in Hm. apply Forall_app. split; [done|].
  induction cs as [|c cs IHc]; cbn [flat_map]; [constructor|]. inversion IH; subst. inversion Hm; subst. apply Forall_app. split; auto.
Qed.

(** So the chaos mode never makes an opaque element. *)
Theorem chaos_never_opaque : forall {E} (iir : N -> N -> @gen E N) ab av fuel u n u' a,
  answers iir -> arb_node iir ab av fuel u = Some (n, u') -> In a (all_attrs n) ->
  lowered (ca_name a) <> str "data-hotmeal-opaque".
Proof.
  intros E iir ab av fuel u n u' a HA En Ha Eq.
  pose proof (all_attrs_ok n (chaos_nodes iir HA ab av fuel u n u' En)) as K. rewrite List.Forall_forall in K.
  destruct (K a Ha) as [(c & l & _ & _ & _ & Hl) _].
  assert (length (lowered (ca_name a)) = 19%nat) as L by (by rewrite Eq). unfold lowered in L. rewrite map_length in L. lia.
Qed.
Print Assumptions chaos_never_opaque.

(** The page without any escaping: the characters that are escaped do not occur. *)
Definition raw_attr (a : cattr) : text :=
  32 :: ca_name a ++ match ca_value a with Some v => str "=""" ++ v ++ [34] | None => [] end.
Fixpoint raw (depth : nat) (n : cnode) : text :=
  match depth with
  | O => []
  | S d =>
      match n with
      | CText t => t
      | CComment t => str "<!--" ++ t ++ str "-->"
      | CElem tag ats cs void =>
          [60] ++ tag ++ flat_map raw_attr ats ++ [62] ++
          if void then [] else flat_map (raw d) cs ++ str "</" ++ tag ++ [62]
      end
  end.

Lemma replaced_none c by_ s : Forall (fun x => x <> c) s -> replaced c by_ s = s.
Proof.
  induction 1 as [|x s Hx Hs IH]; [done|]. unfold replaced in *. cbn [flat_map]. rewrite IH.
  destruct (N.eqb_spec x c); [done|]. done.
Qed.

Lemma ne_of c (P : N -> Prop) s : (forall x, P x -> x <> c) -> Forall P s -> Forall (fun x => x <> c) s.
Proof. intros HP H. induction H; constructor; auto. Qed.
Lemma alnum_not c x : alnum x -> c < 48 \/ 57 < c < 65 \/ 90 < c < 97 \/ 122 < c -> x <> c.
Proof. unfold alnum, alpha. lia. Qed.
Lemma spaced_id s : Forall alnum s -> spaced s = s.
Proof.
  induction 1 as [|x s Hx Hs IH]; [done|]. destruct s as [|y s]; [done|]. cbn [spaced].
  destruct (N.eqb_spec x 45) as [->|]; [exfalso; unfold alnum, alpha in Hx; lia|]. cbn [andb]. f_equal. exact IH.
Qed.
Lemma safe_id s : Forall alnum s -> safe_comment s = s.
Proof.
  intros Hs. unfold safe_comment. rewrite spaced_id by done.
  assert (drop_while (N.eqb 45) (rev s) = rev s) as ->; [|apply rev_involutive].
  destruct (rev s) as [|x r] eqn:Er; [done|]. cbn [drop_while].
  assert (alnum x) as Hx. { rewrite List.Forall_forall in Hs. apply Hs. apply in_rev. rewrite Er. by left. }
  destruct (N.eqb_spec 45 x) as [<-|]; [exfalso; unfold alnum, alpha in Hx; lia|done].
Qed.
Lemma attr_raw a : attr_ok a -> attr_html a = raw_attr a.
Proof.
  intros [_ Hv]. unfold attr_html, raw_attr. destruct (ca_value a) as [v|]; [|done]. destruct (Hv v eq_refl) as [Ho _].
  unfold escape_attr.
  assert (forall c b, c = 38 \/ c = 34 \/ c = 60 \/ c = 62 -> replaced c b v = v) as R.
  { intros c b Hc. apply replaced_none. eapply ne_of; [|exact Ho]. unfold value_ok, alnum, alpha. lia. }
  rewrite (R 38), (R 34), (R 60), (R 62) by lia. done.
Qed.

(** The nodes at depths 0 to 6 are written, and as they are. *)
Theorem chaos_unescaped : forall n, made n -> forall depth, to_html depth n = raw (7 - depth) n.
Proof.
  induction n as [t|t|tag ats cs v IH] using cnode_ind'; intros Hm depth; cbn [to_html];
    (destruct (Nat.ltb_spec 6 depth) as [Hd|Hd];
     [replace (7 - depth)%nat with 0%nat by lia; done|replace (7 - depth)%nat with (S (7 - S depth)) by lia; cbn [raw]]).
  - destruct Hm as [Ht _]. unfold escape_text.
    assert (forall c b, c = 38 \/ c = 60 -> replaced c b t = t) as R.
    { intros c b Hc. apply replaced_none. eapply ne_of; [|exact Ht]. unfold alnum, alpha. lia. }
    rewrite (R 38), (R 60) by lia. done.
  - destruct Hm as [Ht _]. by rewrite safe_id.
  - destruct Hm as (_ & Ha & _ & _ & _ & _ & Hm). apply made_all in Hm. cbn [app]. f_equal. f_equal.
    assert (flat_map attr_html ats = flat_map raw_attr ats) as ->.
    { clear - Ha. induction Ha as [|a ats Ha _ IHa]; [done|]. cbn [flat_map]. by rewrite attr_raw, IHa. }
    f_equal. destruct v; [done|]. cbn [app]. f_equal. f_equal.
    clear - IH Hm. induction cs as [|c cs IHc]; [done|]. inversion IH; subst. inversion Hm; subst. cbn [flat_map].
    rewrite IHc by done. f_equal. auto.
Qed.
Print Assumptions chaos_unescaped.

Definition plain_char (c : N) : Prop := 32 <= c <= 126 /\ c <> 38.
Definition plain_charb (c : N) : bool := in_range 32 126 c && negb (c =? 38).
Lemma plain_check l : forallb plain_charb l = true -> Forall plain_char l.
Proof.
  intros K. rewrite forallb_forall in K. apply List.Forall_forall. intros c Hc. specialize (K c Hc). revert K.
  unfold plain_charb, in_range, plain_char. rewrite !andb_true_iff, negb_true_iff, !N.leb_le, N.eqb_neq. lia.
Qed.
Lemma plain_of (P : N -> Prop) s : (forall x, P x -> plain_char x) -> Forall P s -> Forall plain_char s.
Proof. intros HP H. induction H; constructor; auto. Qed.
Lemma name_plain x : name_char x -> plain_char x.
Proof. unfold name_char, alnum, alpha, plain_char. lia. Qed.
Lemma plain_attr a : attr_ok a -> Forall plain_char (raw_attr a).
Proof.
  intros [(c & l & En & Hc & Hl & _) Hv]. unfold raw_attr. rewrite En. apply List.Forall_cons; [unfold plain_char; lia|].
  cbn [app]. apply List.Forall_cons; [apply name_plain; by do 2 left|]. apply Forall_app. split; [by eapply plain_of; [apply name_plain|]|].
  destruct (ca_value a) as [v|]; [|constructor]. destruct (Hv v eq_refl) as [Ho _].
  repeat (apply Forall_app; split); try by apply plain_check.
  eapply plain_of; [|exact Ho]. unfold value_ok, alnum, alpha, plain_char. lia.
Qed.
Lemma plain_tag t : tag_ok t -> Forall plain_char t.
Proof.
  intros (c & l & -> & Hc & Hl & _). constructor; [|by eapply plain_of; [apply name_plain|]].
  unfold alpha in Hc. unfold plain_char. lia.
Qed.
Lemma plain_flat {A} (P : A -> Prop) (f : A -> text) l : (forall x, P x -> Forall plain_char (f x)) -> Forall P l -> Forall plain_char (flat_map f l).
Proof. intros Hf H. induction H; cbn [flat_map]; [constructor|]. apply Forall_app. auto. Qed.
Lemma plain_raw n : made n -> forall d, Forall plain_char (raw d n).
Proof.
  induction n as [t|t|tag ats cs v IH] using cnode_ind'; intros Hm [|d]; cbn [raw]; try apply List.Forall_nil.
  - destruct Hm as [Ht _]. eapply plain_of; [|exact Ht]. unfold alnum, alpha, plain_char. lia.
  - destruct Hm as [Ht _]. repeat (apply Forall_app; split); try by apply plain_check.
    eapply plain_of; [|exact Ht]. unfold alnum, alpha, plain_char. lia.
  - destruct Hm as (Htag & Ha & _ & _ & _ & _ & Hm). apply made_all in Hm.
    repeat (apply Forall_app; split); try by apply plain_check.
    + by apply plain_tag.
    + by eapply plain_flat; [apply plain_attr|].
    + destruct v; [constructor|]. repeat (apply Forall_app; split); try by apply plain_check.
      * clear - IH Hm. induction cs as [|c cs IHc]; cbn [flat_map]; [constructor|]. inversion IH; subst. inversion Hm; subst.
        apply Forall_app. split; auto.
      * by apply plain_tag.
Qed.

(** Every page of the chaos mode: printable ASCII only, and no [&]: no character
    reference is ever written, so none is ever parsed. *)
Theorem chaos_pages_plain : forall {E} (iir : N -> N -> @gen E N) ab av nodes d nest,
  answers iir -> (forall n, In n nodes -> exists fuel u u', arb_node iir ab av fuel u = Some (n, u')) ->
  Forall plain_char (chaos_page nodes d nest).
Proof.
  intros E iir ab av nodes d nest HA Hn.
  assert (Forall plain_char (flat_map (to_html 0) (firstn 6 nodes))) as K.
  { eapply (plain_flat made).
    - intros n Hm. rewrite chaos_unescaped by done. by apply plain_raw.
    - apply List.Forall_forall. intros n Hi. destruct (Hn n) as (fuel & u & u' & En).
      + revert Hi. generalize 6%nat. clear. intros k. revert nodes. induction k as [|k IH]; intros [|x l] Hi; cbn in Hi; try done.
        destruct Hi as [->|Hi]; [by left|right; auto].
      + by eapply chaos_nodes. }
  unfold chaos_page. apply Forall_app. split; [destruct d; by apply plain_check|].
  apply Forall_app. split; [by apply plain_check|]. apply Forall_app. split; [|by apply plain_check].
  destruct (flat_map (to_html 0) (firstn 6 nodes)) as [|c l]; [constructor|]. destruct nest; [|done].
  apply Forall_app. split; [by apply plain_check|]. apply Forall_app. split; [done|].
  apply Forall_app. split; by apply plain_check.
Qed.
Print Assumptions chaos_pages_plain.

(** ** An example *)

(** Data that give the numbers asked for, if they are in the range. *)
Definition listed_draw (lo hi : N) (u : list N) : option (N * list N) :=
  match u with
  | [] => Some (lo, [])
  | x :: u' => Some (if in_range lo hi x then x else lo, u')
  end.
Definition listed_bool (u : list N) : option (bool * list N) := match u with [] => Some (false, []) | x :: u' => Some (N.odd x, u') end.
Definition listed_variant : list N -> option (N * list N) := listed_draw 0 2.

Lemma listed_answers : answers listed_draw.
Proof.
  intros lo hi [|x u] Hl; cbn [listed_draw]; [exists lo, []; split; [done|lia]|].
  destruct (in_range lo hi x) eqn:Ei; [|exists lo, u; split; [done|lia]].
  exists x, u. split; [done|]. revert Ei. unfold in_range. rewrite andb_true_iff, !N.leb_le. lia.
Qed.

Definition pick (s : string) : list N := flat_map (fun c => [0; c - 97]) (str s).
(** An element "body" with the attribute "id" and the value "a b" (in 0-th place of
    the text is a 55, which would be a less-than sign). *)
Definition chaos_data : list N :=
  2 :: 4 :: pick "body" ++ [1; 2; 2] ++ [2] ++ pick "id" ++ [1; 3] ++ [0; 0; 36; 0; 1] ++ [2] ++
  [1; 0; 3; 55; 60; 7; 0; 25; 60; 53; 2].

Example chaos_example :
  answers listed_draw /\
  exists n u, arb_node listed_draw listed_bool listed_variant 3 chaos_data = Some (n, u) /\
    n = CElem (str "body") [mkCA (str "id") (Some (str "a b"))] [CText (str "7z2")] false /\
    chaos_page [n] DtHtml5 false = str "<!DOCTYPE html><html><body><body id=""a b"">7z2</body></body></html>".
Proof. split; [apply listed_answers|]. eexists _, _. split; [by vm_compute|]. split; by vm_compute. Qed.

(** The escapes are needed in general. *)
Example chaos_escapes_example :
  to_html 0 (CElem (str "p") [mkCA (str "x") (Some (str "a""<"))] [CText (str "1 < 2"); CComment (str "a---")] false) =
    str "<p x=""a&quot;&lt;"">1 &lt; 2<!--a- --></p>".
Proof. by vm_compute. Qed.

(** Six nodes at most; the unclosed elements only if asked for and if there is something. *)
Example chaos_page_example :
  let nodes := map (fun s => CText (str s)) ["a"; "b"; "c"; "d"; "e"; "f"; "g"] in
  chaos_page nodes DtNone false = str "<html><body>abcdef</body></html>" /\
  chaos_page nodes DtNone true =
    str "<html><body><p>Unclosed paragraphabcdef<div>Inside P which browsers will auto-close</div><span>Unclosed span<div>Block in span</div></body></html>" /\
  chaos_page [CText []] DtNone true = str "<html><body></body></html>" /\
  (let nested := fun n => Nat.iter n (fun c => CElem (str "b") [] [c] false) (CText (str "x")) in
   to_html 0 (nested 6%nat) = str "<b><b><b><b><b><b>x</b></b></b></b></b></b>" /\
   to_html 0 (nested 8%nat) = str "<b><b><b><b><b><b><b></b></b></b></b></b></b></b>").
Proof. repeat split; by vm_compute. Qed.
