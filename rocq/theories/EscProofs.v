(** Escaping: properties C13 and C14. *)
From Verif Require Import Base Dom.
Local Open Scope string_scope.

(** ** Specification: a decoder of the four named entities and character
    membership, written without reference to the escaping functions. *)

Fixpoint starts_with (p s : string) : bool :=
  match p with
  | EmptyString => true
  | String a p' => match s with
                   | EmptyString => false
                   | String b s' => Ascii.eqb a b && starts_with p' s'
                   end
  end.

Fixpoint decode_from (skip : nat) (s : string) : string :=
  match s with
  | EmptyString => ""
  | String c s' =>
      match skip with
      | S k => decode_from k s'
      | 0 =>
          if starts_with "&amp;" s then String "&" (decode_from 4 s')
          else if starts_with "&lt;" s then String "<" (decode_from 3 s')
          else if starts_with "&gt;" s then String ">" (decode_from 3 s')
          else if starts_with "&quot;" s then String quote_char (decode_from 5 s')
          else String c (decode_from 0 s')
      end
  end.
Definition decode_entities : string -> string := decode_from 0.

Fixpoint occurs (c : ascii) (s : string) : Prop :=
  match s with
  | EmptyString => False
  | String d s' => d = c \/ occurs c s'
  end.

(** ** Proofs *)

Lemma sapp_assoc a b c : (a ++ b) ++ c = a ++ (b ++ c).
Proof. induction a; simpl; congruence. Qed.

Lemma sapp_nil a : a ++ "" = a.
Proof. induction a; simpl; congruence. Qed.

Lemma occurs_app c a b : occurs c (a ++ b) <-> occurs c a \/ occurs c b.
Proof. induction a; simpl; tauto. Qed.

Lemma occurs_dec c s : occurs c s \/ ~ occurs c s.
Proof.
  induction s as [|d s IH]; simpl; [tauto|].
  destruct (Ascii.eqb d c) eqn:E; [left; left; by apply Ascii.eqb_eq|].
  apply Ascii.eqb_neq in E. tauto.
Qed.

Lemma decode_text_char c r :
  decode_from 0 (esc_text_char c ++ r) = String c (decode_from 0 r).
Proof.
  unfold esc_text_char.
  destruct (Ascii.eqb c "&") eqn:E1.
  { apply Ascii.eqb_eq in E1 as ->. reflexivity. }
  destruct (Ascii.eqb c "<") eqn:E2.
  { apply Ascii.eqb_eq in E2 as ->. reflexivity. }
  cbn [append decode_from starts_with]. rewrite Ascii.eqb_sym, E1. reflexivity.
Qed.

Lemma decode_attr_char c r :
  decode_from 0 (esc_attr_char c ++ r) = String c (decode_from 0 r).
Proof.
  unfold esc_attr_char.
  destruct (Ascii.eqb c "&") eqn:E1.
  { apply Ascii.eqb_eq in E1 as ->. reflexivity. }
  destruct (Ascii.eqb c quote_char) eqn:E2.
  { apply Ascii.eqb_eq in E2 as ->. reflexivity. }
  destruct (Ascii.eqb c "<") eqn:E3.
  { apply Ascii.eqb_eq in E3 as ->. reflexivity. }
  destruct (Ascii.eqb c ">") eqn:E4.
  { apply Ascii.eqb_eq in E4 as ->. reflexivity. }
  cbn [append decode_from starts_with]. rewrite Ascii.eqb_sym, E1. reflexivity.
Qed.

Lemma decode_escape_text s : decode_entities (escape_text s) = s.
Proof.
  unfold decode_entities, escape_text. induction s as [|c s IH]; [done|].
  simpl str_flat_map. rewrite decode_text_char. congruence.
Qed.

Lemma decode_escape_attr s : decode_entities (escape_attr s) = s.
Proof.
  unfold decode_entities, escape_attr. induction s as [|c s IH]; [done|].
  simpl str_flat_map. rewrite decode_attr_char. congruence.
Qed.

Ltac ascii_cases :=
  repeat match goal with
  | H : _ \/ _ |- _ => destruct H
  | H : False |- _ => destruct H
  | H : Ascii.eqb ?a ?a = false |- _ => rewrite Ascii.eqb_refl in H; discriminate H
  | H : @eq ascii _ _ |- _ => first [discriminate H | subst]
  end.

Lemma flat_map_occurs f x s :
  occurs x (str_flat_map f s) -> exists c, occurs c s /\ occurs x (f c).
Proof.
  induction s as [|c s IH]; simpl; [done|].
  rewrite occurs_app. intros [H|H]; [eauto|].
  apply IH in H as (d & ? & ?); eauto.
Qed.

Lemma escape_text_no_lt s : ~ occurs "<" (escape_text s).
Proof.
  intros H. apply flat_map_occurs in H as (c & _ & H). unfold esc_text_char in H.
  destruct (Ascii.eqb c "&") eqn:E1; simpl in H; [ascii_cases|].
  destruct (Ascii.eqb c "<") eqn:E2; simpl in H; ascii_cases.
Qed.

Lemma escape_attr_no_special s x :
  x = "<"%char \/ x = ">"%char \/ x = quote_char -> ~ occurs x (escape_attr s).
Proof.
  intros Hx H. apply flat_map_occurs in H as (c & _ & H). unfold esc_attr_char in H.
  destruct (Ascii.eqb c "&") eqn:E1; simpl in H; [unfold quote_char in *; ascii_cases|].
  destruct (Ascii.eqb c quote_char) eqn:E2; simpl in H; [unfold quote_char in *; ascii_cases|].
  destruct (Ascii.eqb c "<") eqn:E3; simpl in H; [unfold quote_char in *; ascii_cases|].
  destruct (Ascii.eqb c ">") eqn:E4; simpl in H; [unfold quote_char in *; ascii_cases|].
  destruct H as [->|[]].
  destruct Hx as [->|[->| ->]]; rewrite Ascii.eqb_refl in *; discriminate.
Qed.

Lemma starts_with_app a b : starts_with a (a ++ b) = true.
Proof. induction a as [|c a IH]; simpl; [done|]. by rewrite Ascii.eqb_refl. Qed.

(** Splitting [x ++ y] at a character occurring in [y] or in [x]. *)
Lemma split_app_char x y u c v :
  x ++ y = u ++ String c v ->
  (exists v', x = u ++ String c v' /\ v = v' ++ y)
  \/ (exists u', y = u' ++ String c v /\ u = x ++ u').
Proof.
  revert u; induction x as [|d x IH]; intros u H; simpl in *.
  - right. exists u. done.
  - destruct u as [|d' u]; simpl in *; injection H as -> H.
    + left. by exists x.
    + apply IH in H as [(v' & -> & ->)|(u' & -> & ->)].
      * left. by exists v'.
      * right. by exists u'.
Qed.

Lemma amp_in_flat_map f (P : string -> Prop) s u v :
  (forall c u v, f c = u ++ String "&" v -> forall r, P (v ++ r)) ->
  str_flat_map f s = u ++ String "&" v -> P v.
Proof.
  intros Hf. revert u v; induction s as [|c s IH]; intros u v H; simpl in H.
  - by destruct u.
  - apply split_app_char in H as [(v' & H & ->)|(u' & H & ->)].
    + eapply Hf, H.
    + eapply IH, H.
Qed.

Lemma amp_entity w u v :
  ~ occurs "&" w -> String "&" w = u ++ String "&" v -> v = w.
Proof.
  intros Hw H. destruct u as [|c u]; simpl in H; [by injection H|].
  injection H as H1 H2. exfalso. apply Hw. rewrite H2, occurs_app. simpl. tauto.
Qed.

Lemma single_no_amp c u v : Ascii.eqb c "&" = false -> String c "" <> u ++ String "&" v.
Proof.
  intros E H. destruct u as [|d u]; simpl in H; injection H as H1 H2.
  - subst. done.
  - by destruct u.
Qed.

Ltac no_amp := simpl; intros ?; ascii_cases.

Lemma amp_text s u v :
  escape_text s = u ++ String "&" v ->
  starts_with "amp;" v = true \/ starts_with "lt;" v = true.
Proof.
  apply (amp_in_flat_map esc_text_char
           (fun v => starts_with "amp;" v = true \/ starts_with "lt;" v = true)).
  clear. intros c u v H r. unfold esc_text_char in H.
  destruct (Ascii.eqb c "&") eqn:E1.
  { apply amp_entity in H; [subst; by left|no_amp]. }
  destruct (Ascii.eqb c "<") eqn:E2.
  { apply amp_entity in H; [subst; by right|no_amp]. }
  by apply single_no_amp in H.
Qed.

Lemma amp_attr s u v :
  escape_attr s = u ++ String "&" v ->
  starts_with "amp;" v = true \/ starts_with "lt;" v = true
  \/ starts_with "gt;" v = true \/ starts_with "quot;" v = true.
Proof.
  apply (amp_in_flat_map esc_attr_char
           (fun v => starts_with "amp;" v = true \/ starts_with "lt;" v = true
              \/ starts_with "gt;" v = true \/ starts_with "quot;" v = true)).
  clear. intros c u v H r. unfold esc_attr_char in H.
  destruct (Ascii.eqb c "&") eqn:E1.
  { apply amp_entity in H; [subst; by left|no_amp]. }
  destruct (Ascii.eqb c quote_char) eqn:E2.
  { apply amp_entity in H; [subst; by do 3 right|no_amp]. }
  destruct (Ascii.eqb c "<") eqn:E3.
  { apply amp_entity in H; [subst; by right; left|no_amp]. }
  destruct (Ascii.eqb c ">") eqn:E4.
  { apply amp_entity in H; [subst; by do 2 right; left|no_amp]. }
  by apply single_no_amp in H.
Qed.

Lemma escape_text_inj s t : escape_text s = escape_text t -> s = t.
Proof. intros H. rewrite <- (decode_escape_text s), <- (decode_escape_text t). congruence. Qed.
