(** Property theorems C82: the inputs of the fuzz targets (Inputs.v). *)
From Coq Require Import NArith.
From Verif Require Import Base Stem Inputs.
From Verif Require PropStem.
Local Open Scope list_scope.

(** ** Searching *)

Lemma starts_spec p : forall s, starts p s = true <-> exists r, s = p ++ r.
Proof.
  induction p as [|x p IH]; intros s; [by split; [exists s|]|]. destruct s as [|y s]; cbn [starts].
  - split; [done|]. by intros [r [=]].
  - rewrite Bool.andb_true_iff, N.eqb_eq, IH. split.
    + intros [-> [r ->]]. by exists r.
    + intros [r [= -> ->]]. eauto.
Qed.
Lemma split_some p : forall s x y, split_at p s = Some (x, y) ->
  s = x ++ y /\ starts p y = true /\ forall a b, s = a ++ p ++ b -> length x <= length a.
Proof.
  induction s as [|c s IH]; intros x y; cbn [split_at].
  - destruct (starts p []) eqn:Es; [|done]. intros [= <- <-]. split_and!; [done|done|cbn; lia].
  - destruct (starts p (c :: s)) eqn:Es; [intros [= <- <-]; split_and!; [done|done|cbn; lia]|].
    destruct (split_at p s) as [[x' y']|] eqn:E; [|done]. intros [= <- <-]. destruct (IH _ _ eq_refl) as (-> & Hs & Hm).
    split_and!; [done|done|]. intros [|a0 a] b Eq.
    + assert (starts p (c :: x' ++ y') = true); [|congruence]. apply starts_spec. by exists b.
    + injection Eq as -> Eq. cbn. specialize (Hm a b Eq). lia.
Qed.
Lemma split_none p : forall s, split_at p s = None -> forall a b, s <> a ++ p ++ b.
Proof.
  induction s as [|c s IH]; cbn [split_at]; intros E a b Eq.
  - destruct (starts p []) eqn:Es; [done|]. apply Bool.not_true_iff_false in Es. apply Es, starts_spec.
    destruct a; [by exists b|done].
  - destruct (starts p (c :: s)) eqn:Es; [done|]. destruct (split_at p s) as [[x y]|] eqn:E'; [done|].
    destruct a as [|a0 a].
    + apply Bool.not_true_iff_false in Es. apply Es, starts_spec. by exists b.
    + injection Eq as -> Eq. by apply (IH eq_refl a b).
Qed.
Lemma contains_spec p s : contains p s = true <-> exists a b, s = a ++ p ++ b.
Proof.
  unfold contains. destruct (split_at p s) as [[x y]|] eqn:E.
  - split; [|done]. intros _. destruct (split_some p s x y E) as (-> & Hs & _). apply starts_spec in Hs as [r ->]. eauto.
  - split; [done|]. intros (a & b & Eq). by destruct (split_none p s E a b).
Qed.

(** The positions that [str::find] gives are boundaries of characters, and the
    characters found there are those that the model finds. *)
Theorem find_bytes (cs p : text) :
  Forall scalar cs -> Forall scalar p -> p <> [] ->
  match split_at p cs with
  | Some (x, y) =>
      str_slice (utf8 cs) (blen x) (blen cs) = Val (utf8 y) /\
      (exists r, utf8 y = (utf8 p ++ r)%string) /\
      forall a b, utf8 cs = (a ++ utf8 p ++ b)%string -> blen x <= String.length a
  | None => forall a b, utf8 cs <> (a ++ utf8 p ++ b)%string
  end.
Proof.
  intros HC HP Hne.
  assert (forall a b, utf8 cs = (a ++ utf8 p ++ b)%string -> exists x y, cs = x ++ p ++ y /\ a = utf8 x) as Hcut.
  { intros a b E. destruct p as [|c p]; [done|]. pose proof (PropStem.utf8_head (c :: p) HP) as Hh.
    destruct (utf8 (c :: p)) as [|z t] eqn:Ez.
    { apply Forall_cons in HP as [Hc _]. destruct (PropStem.enc_shape c Hc) as (z & r & Eb & _). cbn [utf8] in Ez.
      by rewrite Eb in Ez. }
    destruct (PropStem.utf8_cut cs a z (t ++ b)%string HC E Hh) as (x & y & -> & -> & Ey).
    apply Forall_app in HC as [HX HY]. change (String z (t ++ b)) with ((String z t) ++ b)%string in Ey. rewrite <- Ez in Ey.
    destruct (PropStem.utf8_prefix (c :: p) y b HP HY (eq_sym Ey)) as (r & -> & _). by exists x, r. }
  assert (forall x y, utf8 (x ++ y) = (utf8 x ++ utf8 y)%string) as Happ.
  { induction x as [|c x IH]; intros y; [done|]. cbn [app utf8]. by rewrite IH, PropStem.append_assoc. }
  destruct (split_at p cs) as [[x y]|] eqn:Es.
  - destruct (split_some p cs x y Es) as (-> & Hs & Hm). apply Forall_app in HC as [HX HY]. split_and!.
    + unfold str_slice, blen. rewrite Happ, PropStem.append_len.
      assert (is_char_boundary (utf8 x ++ utf8 y) (String.length (utf8 x)) = true) as ->.
      { unfold is_char_boundary. rewrite PropStem.append_len.
        pose proof (PropStem.get_append_r (utf8 x) (utf8 y) 0) as Eg. rewrite Nat.add_0_r in Eg. rewrite Eg. clear Eg.
        pose proof (PropStem.utf8_head y HY) as Hh. destruct (utf8 y) as [|z t] eqn:Ey.
        - cbn [String.length]. rewrite Nat.add_0_r, Nat.eqb_refl. by rewrite Bool.orb_true_r.
        - cbn [String.get]. rewrite Hh. by rewrite Bool.orb_true_r. }
      assert (is_char_boundary (utf8 x ++ utf8 y) (String.length (utf8 x) + String.length (utf8 y)) = true) as ->.
      { unfold is_char_boundary. rewrite PropStem.append_len, Nat.eqb_refl. by rewrite Bool.orb_true_r. }
      rewrite (proj2 (Nat.leb_le _ _)) by lia. cbn [andb]. f_equal.
      replace (String.length (utf8 x) + String.length (utf8 y) - String.length (utf8 x)) with (String.length (utf8 y)) by lia.
      clear. induction (utf8 x) as [|c s IH]; cbn; [|done]. induction (utf8 y) as [|c s IH]; cbn; congruence.
    + apply starts_spec in Hs as [r ->]. exists (utf8 r). apply Happ.
    + intros a b E. destruct (Hcut a b E) as (x' & y' & Eq & ->). specialize (Hm x' y' Eq).
      assert (exists z, x' = x ++ z) as [z ->].
      { exists (skipn (length x) x'). rewrite <- (firstn_skipn (length x) x') at 1. f_equal.
        apply (f_equal (firstn (length x))) in Eq. rewrite firstn_app, Nat.sub_diag, firstn_all in Eq. cbn in Eq.
        rewrite app_nil_r in Eq. rewrite firstn_app in Eq. replace (length x - length x') with 0 in Eq by lia. cbn in Eq.
        by rewrite app_nil_r in Eq. }
      unfold blen. rewrite Happ, PropStem.append_len. lia.
  - intros a b E. destruct (Hcut a b E) as (x & y & Eq & _). by destruct (split_none p cs Es x y).
Qed.
Print Assumptions find_bytes.

(** The check for each step of [valid_for_parity]. *)
Lemma valid_parts s : valid_for_parity s = true ->
  ends_in_markup s = false /\ contains (str "<!d") (lowered s) = false /\
  contains (str "<details") (lowered s) = false /\ contains (str "<template") (lowered s) = false /\
  contains (str "<select") (lowered s) = false /\ contains (str "<!doctype") (lowered s) = false /\
  has_newline_charref s = false /\ has_mismatched_heading s = false /\
  has_custom_element s = false /\ nested_lt false false s = false /\ s <> [].
Proof.
  unfold valid_for_parity. intros Hv. repeat match type of Hv with (if ?b then false else _) = true => destruct b eqn:?; [done|] end.
  split_and!; try done. by intros ->.
Qed.

(** ** Brackets *)

Lemma nested_prefix t : (forall b h, nested_lt b h t = true) -> forall p b h, nested_lt b h (p ++ t) = true.
Proof.
  intros Ht. induction p as [|c p IH]; intros b h; [apply Ht|]. cbn [app nested_lt].
  destruct (N.eqb c 60); [by destruct b|]. by destruct (N.eqb c 62 && b), h.
Qed.
Lemma nested_close : forall q r, ~ In 62%N q -> nested_lt true true (q ++ 62%N :: r) = true.
Proof.
  induction q as [|c q IH]; intros r Hn; [done|]. cbn [app nested_lt]. destruct (N.eqb c 60); [apply IH; firstorder|].
  destruct (N.eqb_spec c 62) as [->|]; [by destruct Hn; left|]. cbn [andb]. apply IH. firstorder.
Qed.
Lemma nested_mid : forall q q' r h, ~ In 62%N q -> ~ In 62%N q' -> nested_lt true h (q ++ 60%N :: q' ++ 62%N :: r) = true.
Proof.
  induction q as [|c q IH]; intros q' r h Hn Hn'; [by apply nested_close|]. cbn [app nested_lt].
  destruct (N.eqb c 60); [apply IH; firstorder|].
  destruct (N.eqb_spec c 62) as [->|]; [by destruct Hn; left|]. cbn [andb]. apply IH; firstorder.
Qed.

(** The check for tags in tags finds two opening brackets before a closing one,
    and nothing else. *)
Theorem nested_brackets (s : text) :
  nested_lt false false s = true <->
  exists p q q' r, s = p ++ 60%N :: q ++ 60%N :: q' ++ 62%N :: r /\ ~ In 62%N q /\ ~ In 62%N q'.
Proof.
  split.
  - cut (forall s b h, nested_lt b h s = true ->
      (exists p q q' r, s = p ++ 60%N :: q ++ 60%N :: q' ++ 62%N :: r /\ ~ In 62%N q /\ ~ In 62%N q') \/
      b = true /\ (exists q q' r, s = q ++ 60%N :: q' ++ 62%N :: r /\ ~ In 62%N q /\ ~ In 62%N q') \/
      b = true /\ h = true /\ exists q r, s = q ++ 62%N :: r /\ ~ In 62%N q).
    { intros Hc Hs. destruct (Hc s false false Hs) as [?|[[? _]|[? _]]]; done. }
    clear s. induction s as [|c s IH]; intros b h; [done|]. cbn [nested_lt].
    destruct (N.eqb_spec c 60) as [->|Hc].
    + intros Hs0. assert (nested_lt true b s = true) as Hs by by destruct b. clear Hs0. destruct (IH true b Hs) as [(p & q & q' & r & -> & Hq & Hq')|[(_ & q & q' & r & -> & Hq & Hq')|(_ & -> & q & r & -> & Hq)]].
      * left. exists (60%N :: p), q, q', r. done.
      * left. exists [], q, q', r. done.
      * right. left. split; [done|]. exists [], q, r. split_and!; [done|tauto|done].
    + destruct (N.eqb_spec c 62) as [->|Hc']; [destruct b; cbn [andb]|cbn [andb]].
      * destruct h; [intros _; right; right; split_and!; [done|done|]; exists [], s; by split; [|tauto]|].
        intros Hs. destruct (IH false false Hs) as [(p & q & q' & r & -> & Hq & Hq')|[[? _]|[? _]]]; [|done|done].
        left. exists (62%N :: p), q, q', r. done.
      * intros Hs. destruct (IH false h Hs) as [(p & q & q' & r & -> & Hq & Hq')|[[? _]|[? _]]]; [|done|done].
        left. exists (62%N :: p), q, q', r. done.
      * intros Hs. destruct (IH b h Hs) as [(p & q & q' & r & -> & Hq & Hq')|[(-> & q & q' & r & -> & Hq & Hq')|(-> & -> & q & r & -> & Hq)]].
        -- left. exists (c :: p), q, q', r. done.
        -- right. left. split; [done|]. exists (c :: q), q', r. split_and!; [done|intros [?|?]; [congruence|done]|done].
        -- right. right. split_and!; [done|done|]. exists (c :: q), r. split_and!; [done|intros [?|?]; [congruence|done]].
  - intros (p & q & q' & r & -> & Hq & Hq'). apply nested_prefix. intros b h. cbn [nested_lt N.eqb Pos.eqb].
    destruct b; by apply nested_mid.
Qed.
Print Assumptions nested_brackets.

Lemma from_last_suffix c : forall s p r, s = p ++ c :: r -> exists t u, from_last c s = Some t /\ c :: r = u ++ t /\ exists v, t = c :: v.
Proof.
  induction s as [|x s IH]; intros p r E; [by destruct p|]. destruct p as [|x' p].
  - injection E as Ex Es. subst x r. rename s into r. cbn [from_last]. destruct (from_last c r) as [t|] eqn:El.
    + assert (exists p' r', r = p' ++ c :: r') as (p' & r' & Er).
      { clear -El. induction r as [|y r IH]; [done|]. cbn [from_last] in El. destruct (from_last c r) as [t'|] eqn:E'.
        - destruct (IH El) as (p' & r' & ->). by exists (y :: p'), r'.
        - destruct (N.eqb_spec y c) as [->|]; [|done]. by exists [], r. }
      destruct (IH p' r' Er) as (t' & u & Et & Eu & Ev). injection Et as <-.
      exists t, (c :: p' ++ u). split_and!; [done| |done]. rewrite Er, Eu. cbn. by rewrite <- app_assoc.
    + rewrite N.eqb_refl. exists (c :: r), []. split_and!; [done|done|by exists r].
  - injection E as -> ->. destruct (IH p r eq_refl) as (t & u & Et & Eu & Ev). exists t, u. cbn [from_last]. by rewrite Et.
Qed.
Lemma trim_split s : exists w, s = trim_end s ++ w /\ forallb is_ws w = true.
Proof.
  unfold trim_end. assert (forall l, exists w, l = w ++ drop_while is_ws l /\ forallb is_ws w = true) as Hd.
  { induction l as [|c l (w & E & Hw)]; [by exists []|]. cbn [drop_while]. destruct (is_ws c) eqn:Ec; [|by exists []].
    exists (c :: w). cbn. by rewrite Ec, <- E. }
  destruct (Hd (rev s)) as (w & E & Hw). exists (rev w). split.
  - rewrite <- rev_app_distr, <- E. by rewrite rev_involutive.
  - rewrite forallb_forall in *. intros c Hc. apply Hw. by apply in_rev.
Qed.

(** In a text that is looked at, each opening bracket has its closing bracket
    before the next opening one. *)
Theorem admitted_brackets (s p r : text) :
  valid_for_parity s = true -> s = p ++ 60%N :: r ->
  exists q r', r = q ++ 62%N :: r' /\ ~ In 60%N q /\ ~ In 62%N q.
Proof.
  intros Hv E. destruct (valid_parts s Hv) as (He & _ & _ & _ & _ & _ & _ & _ & _ & Hn & _).
  assert (In 62%N r) as Hin.
  { destruct (trim_split s) as (w & Ew & Hw).
    assert (exists r', r = r' ++ w /\ trim_end s = p ++ 60%N :: r') as (r' & -> & Et).
    { rewrite forallb_forall in Hw. rewrite Ew in E. apply app_eq_inv in E as [(k & Et & Ek)|(k & _ & Ek)].
      - destruct k as [|x k]; [|injection Ek as <- Ek; by exists k]. exfalso. cbn [app] in Ek. specialize (Hw 60%N). rewrite <- Ek in Hw.
        by specialize (Hw (or_introl eq_refl)).
      - exfalso. specialize (Hw 60%N). rewrite Ek in Hw. by specialize (Hw ltac:(apply in_or_app; right; by left)). }
    destruct (from_last_suffix 60%N (trim_end s) p r' Et) as (t & u & Ef & Eu & v & Ev).
    unfold ends_in_markup in He. rewrite Ef in He. apply Bool.orb_false_iff in He as [_ He].
    apply Bool.negb_false_iff, contains_spec in He as (a & b & Eab).
    assert (In 62%N (60%N :: r')) as [?|?]; [|done|apply in_or_app; by left].
    rewrite Eu, Eab. apply in_or_app. right. apply in_or_app. right. by left. }
  apply in_split in Hin. destruct Hin as (q0 & r0 & Er).
  assert (exists q r', r = q ++ 62%N :: r' /\ ~ In 62%N q) as (q & r' & -> & Hq).
  { clear -Er. revert q0 r0 Er. induction r as [|c r IH]; intros q0 r0 Er; [by destruct q0|].
    destruct (N.eq_dec c 62) as [->|Hc]; [by exists [], r; split; [|tauto]|].
    destruct q0 as [|x q0]; [by injection Er|]. injection Er as -> Er. destruct (IH q0 r0 Er) as (q & r' & -> & Hq).
    exists (x :: q), r'. split; [done|]. intros [?|?]; [congruence|done]. }
  exists q, r'. split_and!; [done| |done]. intros H60. apply in_split in H60 as (q1 & q2 & ->).
  apply Bool.not_true_iff_false in Hn. apply Hn, nested_brackets. exists p, q1, q2, r'. rewrite E. split_and!.
  - by rewrite <- app_assoc.
  - intros ?. apply Hq, in_or_app. by left.
  - intros ?. apply Hq, in_or_app. right. by right.
Qed.
Print Assumptions admitted_brackets.

(** ** Custom elements *)

Lemma name_slash c : in_name c = true -> is "/!?" c = false /\ c <> 60%N.
Proof.
  unfold in_name, is_alnum, is_digit, is. cbn [str list_ascii_of_string map existsb]. intros H. split.
  - apply Bool.not_true_iff_false. intros H'. rewrite !Bool.orb_true_iff, !N.eqb_eq in H'.
    change (N_of_ascii "/") with 47%N in H'. change (N_of_ascii "!") with 33%N in H'. change (N_of_ascii "?") with 63%N in H'.
    destruct H' as [->|[->|[->|?]]]; [done|done|done|done].
  - by intros ->.
Qed.
Lemma take_while_app f p x t : f x = false ->
  exists q r, p = q ++ r /\ take_while f (p ++ x :: t) = q.
Proof.
  intros Hx. induction p as [|c p (q & r & -> & E)]; cbn [app take_while].
  - exists [], []. by rewrite Hx.
  - destruct (f c).
    + exists (c :: q), r. by rewrite E.
    + by exists [], (c :: q ++ r).
Qed.
Lemma take_while_all f s : Forall (fun c => f c = true) (take_while f s).
Proof. induction s as [|c s IH]; cbn [take_while]; [constructor|]. destruct (f c) eqn:E; constructor; done. Qed.
Lemma take_while_split f s : exists r, s = take_while f s ++ r.
Proof. induction s as [|c s (r & E)]; [by exists []|]. cbn [take_while]. destruct (f c); [exists r; cbn; by rewrite <- E|by exists (c :: s)]. Qed.

Lemma custom_found f : forall s p c n r, length s < f ->
  s = p ++ 60%N :: c :: n ++ 45%N :: r -> in_name c = true -> c <> 45%N -> Forall (fun x => in_name x = true) n ->
  custom f s = true.
Proof.
  induction f as [|f IH]; intros s p c n r Hl E Hc Hd Hn; [lia|]. destruct s as [|x s]; [by destruct p|]. cbn [length] in Hl.
  cbn [custom]. destruct p as [|x' p].
  - injection E as -> ->. cbn [N.eqb Pos.eqb length Nat.eqb negb andb starts_where].
    destruct (name_slash c Hc) as [-> _].
    assert (exists m, take_while in_name (c :: n ++ 45%N :: r) = c :: n ++ 45%N :: m) as (m & ->).
    { exists (take_while in_name r). cbn [take_while]. rewrite Hc. f_equal. clear -Hn. induction Hn as [|y n Hy _ IH]; cbn [app take_while]; [done|].
      by rewrite Hy, IH. }
    assert (contains (str "-") (c :: n ++ 45%N :: m) = true) as -> by (apply contains_spec; exists (c :: n), m; done).
    assert (starts (str "-") (c :: n ++ 45%N :: m) = false) as ->.
    { cbn [str list_ascii_of_string map starts]. destruct (N.eqb_spec (N_of_ascii "-") c) as [<-|]; [done|done]. }
    cbn [length]. rewrite app_length. cbn [length]. rewrite (proj2 (Nat.ltb_lt _ _)) by lia. done.
  - injection E as <- E. assert (custom f s = true) as Hs by by apply (IH s p c n r); [lia|..].
    destruct (N.eqb x 60 && negb (Nat.eqb (length s) 0)); [|done]. destruct (starts_where (is "/!?") s); [done|].
    destruct (contains _ _ && _ && _); [done|].
    destruct (take_while_app in_name p 60%N (c :: n ++ 45%N :: r) eq_refl) as (q & p' & Ep & Eq). rewrite <- E in Eq. rewrite Eq.
    apply (IH _ p' c n r); [|rewrite E, Ep, <- app_assoc, skipn_app, skipn_all, Nat.sub_diag; done|done|done|done].
    rewrite skipn_length. lia.
Qed.
Lemma custom_only f : forall s, custom f s = true ->
  exists p c n r, s = p ++ 60%N :: c :: n ++ 45%N :: r /\ in_name c = true /\ c <> 45%N /\ Forall (fun x => in_name x = true) n.
Proof.
  induction f as [|f IH]; intros s; [done|]. destruct s as [|x s]; [done|]. cbn [custom].
  assert (forall q s', s = q ++ s' -> custom f s' = true ->
    exists p c n r, x :: s = p ++ 60%N :: c :: n ++ 45%N :: r /\ in_name c = true /\ c <> 45%N /\ Forall (fun x => in_name x = true) n) as Hgo.
  { intros q s' -> Hs. destruct (IH s' Hs) as (p & c & n & r & -> & ?). exists (x :: q ++ p), c, n, r. cbn. by rewrite <- app_assoc. }
  destruct (N.eqb_spec x 60) as [->|]; cbn [andb]; [|by apply (Hgo [])].
  destruct (negb (Nat.eqb (length s) 0)); [|by apply (Hgo [])].
  destruct (starts_where (is "/!?") s); [by apply (Hgo [])|].
  destruct (take_while_split in_name s) as (t & Et). pose proof (take_while_all in_name s) as Hall.
  destruct (contains _ _ && _ && _) eqn:Ec.
  - intros _. apply Bool.andb_true_iff in Ec as [Ec Hs]. apply Bool.andb_true_iff in Ec as [Ec _].
    apply contains_spec in Ec as (a & b & Ea). destruct a as [|c n].
    + rewrite Ea in Hs. done.
    + rewrite Ea in Hall, Hs. cbn [app] in Hall. apply Forall_cons in Hall as [Hc Hall]. apply Forall_app in Hall as [Hn _].
      exists [], c, n, (b ++ t). split_and!; [rewrite Et, Ea; cbn; by rewrite <- app_assoc|done| |done].
      intros ->. done.
  - intros Hs. apply (Hgo (take_while in_name s) (skipn (length (take_while in_name s)) s)); [|done].
    rewrite Et at 1. f_equal. rewrite Et at 2. rewrite skipn_app, skipn_all, Nat.sub_diag. done.
Qed.

(** Texts with a custom element are found: an opening bracket, and a name with a
    hyphen that is not its first character. *)
Theorem custom_elements (s : text) :
  has_custom_element s = true <->
  exists p c n r, s = p ++ 60%N :: c :: n ++ 45%N :: r /\
    in_name c = true /\ c <> 45%N /\ Forall (fun x => in_name x = true) n.
Proof.
  split; [apply custom_only|]. intros (p & c & n & r & E & Hc & Hd & Hn). by apply (custom_found _ s p c n r); [lia|..].
Qed.
Print Assumptions custom_elements.

(** ** Words *)

(** No text that is looked at has one of these tags, whatever the case of its
    letters. *)
Theorem admitted_words (s p x r : text) (w : string) :
  valid_for_parity s = true -> s = p ++ x ++ r ->
  In w ["<details"; "<template"; "<select"; "<!d"; "<!doctype"]%string ->
  map lower_n x <> str w.
Proof.
  intros Hv -> Hin E. destruct (valid_parts _ Hv) as (_ & H1 & H2 & H3 & H4 & H5 & _).
  assert (contains (str w) (lowered (p ++ x ++ r)) = true) as Hc.
  { apply contains_spec. exists (lowered p), (lowered r). unfold lowered. by rewrite !map_app, E. }
  destruct Hin as [<-|[<-|[<-|[<-|[<-|[]]]]]]; congruence.
Qed.
Print Assumptions admitted_words.

(** ** Headings *)

Lemma headings_prefix t : (forall pr st, after_slash pr = false -> headings pr st t = true) ->
  forall p pr st, after_slash (match last p with Some c => Some c | None => pr end) = false -> headings pr st (p ++ t) = true.
Proof.
  intros Ht. induction p as [|c p IH]; intros pr st Hl; [by apply Ht|].
  assert (forall st', headings (Some c) st' (p ++ t) = true) as Hg by (intros st'; apply IH; rewrite last_cons in Hl; by destruct (last p)).
  cbn [app headings]. destruct (starts _ _ && _); [apply Hg|]. destruct (starts _ _ && _); [|apply Hg].
  destruct st as [|l st]; [apply Hg|]. destruct (starts_where _ _); [apply Hg|done].
Qed.
Lemma headings_mid t : forall m pr st, ~ In 60%N m -> (forall pr', headings pr' st t = true) -> headings pr st (m ++ t) = true.
Proof.
  induction m as [|c m IH]; intros pr st Hn Ht; [apply Ht|]. cbn [app headings].
  assert (starts (str "<h") (c :: m ++ t) = false) as ->.
  { apply Bool.not_true_iff_false. intros E. apply starts_spec in E as [r E]. injection E as -> _. apply Hn. by left. }
  assert (starts (str "</h") (c :: m ++ t) = false) as ->.
  { apply Bool.not_true_iff_false. intros E. apply starts_spec in E as [r E]. injection E as -> _. apply Hn. by left. }
  cbn [andb]. apply IH; [firstorder|done].
Qed.

(** A heading that is closed as another one is found, unless the opening bracket
    comes after a slash. *)
Theorem admitted_headings (s p m r : text) (a b : N) :
  valid_for_parity s = true ->
  lowered s = p ++ str "<h" ++ a :: m ++ str "</h" ++ b :: r ->
  is_heading a = true -> is_heading b = true -> ~ In 60%N m -> last p <> Some 47%N -> a = b.
Proof.
  intros Hv E Ha Hb Hm Hp. destruct (N.eq_dec a b) as [|Hne]; [done|]. exfalso.
  destruct (valid_parts s Hv) as (_ & _ & _ & _ & _ & _ & _ & Hh & _). apply Bool.not_true_iff_false in Hh. apply Hh.
  unfold has_mismatched_heading. rewrite E. apply headings_prefix.
  2: { destruct (last p) as [c|]; [|done]. cbn. apply N.eqb_neq. congruence. }
  intros pr st Hpr. change (str "<h") with [60; 104]%N. change (str "</h") with [60; 47; 104]%N. cbn [app].
  assert (is_digit a = true /\ a <> 60%N /\ a <> 104%N) as (Hd & Ha1 & Ha2).
  { unfold is_heading, is_digit in *. rewrite !Bool.andb_true_iff, !N.leb_le in *. lia. }
  assert (forall x s, x <> 60%N -> forall pr st, headings pr st (x :: s) = headings (Some x) st s) as Hskip.
  { intros x s' Hx pr' st'. cbn [headings]. change (str "<h") with [60; 104]%N. change (str "</h") with [60; 47; 104]%N.
    cbn [starts]. rewrite (proj2 (N.eqb_neq 60 x)) by congruence. done. }
  assert (headings pr st (60%N :: 104%N :: a :: m ++ 60%N :: 47%N :: 104%N :: b :: r)
          = headings (Some 60%N) (a :: st) (104%N :: a :: m ++ 60%N :: 47%N :: 104%N :: b :: r)) as ->.
  { set (u := m ++ 60%N :: 47%N :: 104%N :: b :: r). cbn [headings]. change (str "<h") with [60; 104]%N.
    cbn [starts N.eqb Pos.eqb andb skipn starts_where firstn app]. by rewrite Hd, Ha, Hpr. }
  rewrite (Hskip 104%N) by done. rewrite (Hskip a) by done. apply headings_mid; [done|]. intros pr'.
  cbn [headings]. change (str "<h") with [60; 104]%N. change (str "</h") with [60; 47; 104]%N.
  cbn [starts N.eqb Pos.eqb andb skipn starts_where]. rewrite Hb. by rewrite (proj2 (N.eqb_neq a b)) by done.
Qed.
Print Assumptions admitted_headings.

(** Headings that are closed one by one pass: texts without [<] and [/], and
    headings around such texts. *)
Inductive balanced : text -> Prop :=
| bal_nil : balanced []
| bal_char c t : c <> 60%N -> c <> 47%N -> balanced t -> balanced (c :: t)
| bal_heading a t u : is_heading a = true -> balanced t -> balanced u ->
    balanced (str "<h" ++ a :: str ">" ++ t ++ str "</h" ++ a :: str ">" ++ u).
Lemma balanced_headings t : balanced t -> forall pr st u, after_slash pr = false ->
  exists pr', after_slash pr' = false /\ headings pr st (t ++ u) = headings pr' st u.
Proof.
  assert (forall x s, x <> 60%N -> forall pr st, headings pr st (x :: s) = headings (Some x) st s) as Hskip.
  { intros x s' Hx pr' st'. cbn [headings]. change (str "<h") with [60; 104]%N. change (str "</h") with [60; 47; 104]%N.
    cbn [starts]. rewrite (proj2 (N.eqb_neq 60 x)) by congruence. done. }
  induction 1 as [|c t H1 H2 Ht IH|a t u Ha Ht IHt Hu IHu]; intros pr st v Hpr.
  - by exists pr.
  - cbn [app]. rewrite Hskip by done. apply IH. cbn. by apply N.eqb_neq.
  - assert (is_digit a = true /\ a <> 60%N /\ a <> 47%N) as (Hd & Ha1 & Ha2).
    { unfold is_heading, is_digit in *. rewrite !Bool.andb_true_iff, !N.leb_le in *. lia. }
    change (str "<h") with [60; 104]%N. change (str "</h") with [60; 47; 104]%N. change (str ">") with [62]%N.
    rewrite <- !app_assoc. cbn [app]. rewrite <- !app_assoc. cbn [app].
    assert (forall w, headings pr st (60%N :: 104%N :: a :: w) = headings (Some a) (a :: st) w) as ->.
    { intros w. transitivity (headings (Some 60%N) (a :: st) (104%N :: a :: w)); [|by rewrite !Hskip].
      cbn [headings]. change (str "<h") with [60; 104]%N.
      cbn [starts N.eqb Pos.eqb andb skipn starts_where firstn app]. by rewrite Hd, Ha, Hpr. }
    rewrite Hskip by done.
    destruct (IHt (Some 62%N) (a :: st) (60%N :: 47%N :: 104%N :: a :: 62%N :: u ++ v) eq_refl) as (pr1 & _ & ->).
    assert (forall w, headings pr1 (a :: st) (60%N :: 47%N :: 104%N :: a :: w) = headings (Some a) st w) as ->.
    { intros w. transitivity (headings (Some 60%N) st (47%N :: 104%N :: a :: w)); [|by rewrite !Hskip].
      cbn [headings]. change (str "<h") with [60; 104]%N. change (str "</h") with [60; 47; 104]%N.
      cbn [starts N.eqb Pos.eqb andb skipn starts_where]. by rewrite Ha, N.eqb_refl. }
    rewrite Hskip by done. by apply IHu.
Qed.
Theorem closed_headings (s : text) : balanced (lowered s) -> has_mismatched_heading s = false.
Proof.
  intros Hb. unfold has_mismatched_heading. rewrite <- (app_nil_r (lowered s)).
  destruct (balanced_headings _ Hb None [] [] eq_refl) as (pr & _ & ->). done.
Qed.
Print Assumptions closed_headings.
Example closed_headings_example :
  balanced (lowered (str "<H1>a<h2>b</h2></H1>c")) /\ has_mismatched_heading (str "<H1>a<h2>b</h2></H1>c") = false.
Proof.
  split; [|done]. apply (bal_heading 49%N (str "a<h2>b</h2>") (str "c")); [done| |by repeat constructor].
  apply bal_char; [done|done|]. apply (bal_heading 50%N (str "b") []); [done|by repeat constructor|constructor].
Qed.

(** ** Foreign content *)

Lemma first_found p s a b : s = a ++ p ++ b -> exists x y, split_at p s = Some (x, y) /\ s = x ++ y /\ length x <= length a.
Proof.
  intros E. destruct (split_at p s) as [[x y]|] eqn:Es; [|by destruct (split_none p s Es a b)].
  destruct (split_some p s x y Es) as (E' & _ & Hm). exists x, y. split_and!; [done|done|by apply (Hm a b)].
Qed.
Lemma later_part (x y a b : text) : x ++ y = a ++ b -> length x <= length a -> exists k, y = k ++ b.
Proof.
  intros E Hl. apply app_eq_inv in E as [(k & -> & ->)|(k & -> & ->)]; [|by exists k].
  rewrite app_length in Hl. destruct k as [|c k]; [by exists []|cbn in Hl; lia].
Qed.

(** What passes has nothing of this kind: a [<title] after an [<svg] unless
    another one comes before that, an [<html] or certain tags after a [<math], an [<html]
    after an [<svg] without a [<math], an [<html] with attributes that is the first. *)
Theorem admitted_foreign (s p q r : text) :
  valid_for_parity s = true ->
  (lowered s = p ++ str "<svg" ++ q ++ str "<title" ++ r -> contains (str "<title") p = true) /\
  (forall w, In w ["<html"; "<li"; "<div"; "<p>"; "<p "; "<table"]%string ->
     lowered s <> p ++ str "<math" ++ q ++ str w ++ r) /\
  (lowered s = p ++ str "<svg" ++ q ++ str "<html" ++ r -> contains (str "<math") (lowered s) = true) /\
  (lowered s = p ++ str "<html" ++ r -> contains (str "<html") p = false ->
     starts (str ">") (trim_start r) = true).
Proof.
  intros Hv. assert (svg_title (lowered s) = false /\ foreign_html (lowered s) = false /\ math_breakout (lowered s) = false /\
    html_attributes (lowered s) = false) as (H1 & H2 & H3 & H4).
  { unfold valid_for_parity in Hv. repeat match type of Hv with (if ?b then false else _) = true => destruct b eqn:?; [done|] end. done. }
  generalize dependent (lowered s). clear s Hv. intros l H1 H2 H3 H4. split_and!.
  - intros E. apply Bool.not_false_iff_true. intros Ht. unfold svg_title, find_pos in H1.
    destruct (first_found (str "<svg") l p (q ++ str "<title" ++ r) E) as (x & y & Es1 & Ex & Lx). rewrite Es1 in H1.
    assert (l = (p ++ str "<svg" ++ q) ++ str "<title" ++ r) as E2 by (rewrite E, <- !app_assoc; done).
    destruct (first_found (str "<title") l _ r E2) as (x2 & y2 & Es2 & Ex2 & _). rewrite Es2 in H1. cbn [option_map fst] in H1.
    apply Nat.ltb_ge in H1. destruct (split_some _ _ _ _ Es2) as (_ & Hs & _). apply starts_spec in Hs as [r2 ->].
    (* the first title lies in [p] or overlaps the start of [<svg] *)
    assert (p ++ (str "<svg" ++ q ++ str "<title" ++ r) = x2 ++ (str "<title" ++ r2)) as Ep by (rewrite <- E; done).
    apply app_eq_inv in Ep as [(k & -> & Ek)|(k & -> & Ek)].
    + destruct k as [|c k].
      * cbn [app] in Ek. change (str "<title") with (60 :: 116 :: str "itle")%N in Ek. change (str "<svg") with (60 :: 115 :: str "vg")%N in Ek.
        discriminate Ek.
      * apply app_eq_inv in Ek as [(k2 & Ek2 & Ek3)|(k2 & Ek2 & Ek3)].
        -- destruct k2 as [|z k2].
           ++ rewrite app_nil_r in Ek2. apply Bool.not_true_iff_false in Ht. apply Ht, contains_spec. exists x2, []. by rewrite Ek2, app_nil_r.
           ++ exfalso. change (str "<svg") with (60 :: 115 :: str "vg")%N in Ek3. injection Ek3 as <- _.
              change (str "<title") with [60; 116; 105; 116; 108; 101]%N in Ek2. injection Ek2 as _ Ek2.
              assert (In 60%N [116; 105; 116; 108; 101]%N) as Hin by (rewrite Ek2; apply in_or_app; right; by left).
              cbn in Hin. intuition discriminate.
        -- apply Bool.not_true_iff_false in Ht. apply Ht, contains_spec. exists x2, k2. by rewrite Ek2.
    + rewrite app_length in H1. destruct k as [|c k]; [|cbn in H1; lia].
      cbn [app] in Ek. change (str "<title") with (60 :: 116 :: str "itle")%N in Ek. change (str "<svg") with (60 :: 115 :: str "vg")%N in Ek.
      discriminate Ek.
  - intros w Hw E. destruct (first_found (str "<math") l p _ E) as (x & y & Es & Ex & Lx).
    assert (exists k, y = k ++ str "<math" ++ q ++ str w ++ r) as [k Ey]. { apply (later_part x y p); [congruence|done]. }
    assert (contains (str w) y = true) as Hc.
    { apply contains_spec. exists (k ++ str "<math" ++ q), r. by rewrite Ey, <- !app_assoc. }
    destruct (split_some _ _ _ _ Es) as (_ & Hs & _).
    destruct Hw as [<-|Hw].
    + unfold foreign_html, from_found in H2. rewrite Es in H2. cbn [option_map snd] in H2. unfold find_pos in H2.
      unfold contains in Hc. destruct (split_at (str "<html") y) as [[x3 y3]|] eqn:E3; [|done]. cbn [option_map fst] in H2.
      destruct x3 as [|c x3]; [|done]. destruct (split_some _ _ _ _ E3) as (Ey3 & Hs3 & _). cbn [app] in Ey3. rewrite Ey3 in Hs.
      apply starts_spec in Hs as [r3 Hr]. apply starts_spec in Hs3 as [r4 Hr']. rewrite Hr in Hr'. discriminate Hr'.
    + unfold math_breakout, from_found in H3. rewrite Es in H3. cbn [option_map snd] in H3.
      apply Bool.not_true_iff_false in H3. apply H3, existsb_exists. by exists w.
  - intros E. apply Bool.not_false_iff_true. intros Hm. unfold foreign_html, from_found in H2. unfold contains in Hm.
    destruct (split_at (str "<math") l) as [[? ?]|]; [done|]. cbn [option_map] in H2.
    destruct (first_found (str "<svg") l p _ E) as (x & y & Es & Ex & Lx). rewrite Es in H2. cbn [option_map snd] in H2.
    assert (exists k, y = k ++ str "<svg" ++ q ++ str "<html" ++ r) as [k Ey]. { apply (later_part x y p); [congruence|done]. }
    assert (contains (str "<html") y = true) as Hc.
    { apply contains_spec. exists (k ++ str "<svg" ++ q), r. by rewrite Ey, <- !app_assoc. }
    destruct (split_some _ _ _ _ Es) as (_ & Hs & _). unfold find_pos in H2. unfold contains in Hc.
    destruct (split_at (str "<html") y) as [[x3 y3]|] eqn:E3; [|done]. cbn [option_map fst] in H2.
    destruct x3 as [|c x3]; [|done]. destruct (split_some _ _ _ _ E3) as (Ey3 & Hs3 & _). cbn [app] in Ey3. rewrite Ey3 in Hs.
    apply starts_spec in Hs as [r3 Hr]. apply starts_spec in Hs3 as [r4 Hr']. rewrite Hr in Hr'. discriminate Hr'.
  - intros E Hp. unfold html_attributes, from_found in H4.
    destruct (first_found (str "<html") l p r E) as (x & y & Es & Ex & Lx). rewrite Es in H4. cbn [option_map snd] in H4.
    assert (y = str "<html" ++ r) as ->.
    { destruct (split_some _ _ _ _ Es) as (_ & Hs & _). apply starts_spec in Hs as [r2 Hr]. rewrite Hr in *.
      rewrite E in Ex. apply app_eq_inv in Ex as [(k & -> & Ek)|(k & -> & Ek)].
      - destruct k as [|c k]; [done|]. exfalso. apply Bool.not_true_iff_false in Hp. apply Hp, contains_spec.
        apply app_eq_inv in Ek as [(k2 & Ek2 & Ek3)|(k2 & Ek2 & Ek3)].
        + destruct k2 as [|z k2].
          * rewrite app_nil_r in Ek2. exists x, []. by rewrite Ek2, app_nil_r.
          * exfalso. change (str "<html") with [60; 104; 116; 109; 108]%N in Ek2, Ek3. injection Ek3 as <- _.
            injection Ek2 as _ Ek2.
            assert (In 60%N [104; 116; 109; 108]%N) as Hin by (rewrite Ek2; apply in_or_app; right; by left).
            cbn in Hin. intuition discriminate.
        + exists x, k2. by rewrite Ek2.
      - rewrite app_length in Lx. destruct k as [|c k]; [|cbn in Lx; lia]. by cbn in Ek. }
    change (skipn 5 (str "<html" ++ r)) with r in H4. apply Bool.andb_false_iff in H4 as [H4|H4]; apply Bool.negb_false_iff in H4; [|done].
    destruct r as [|c r]; [done|]. apply starts_spec in H4 as [r2 Hr]. injection Hr as -> _. done.
Qed.
Print Assumptions admitted_foreign.

(** ** Character references *)

Definition digit_value (c : N) : N :=
  (if c <=? 57 then c - 48 else if c <=? 70 then c - 55 else c - 87)%N.
Definition is_hex (c : N) : bool := (is_digit c || ((65 <=? c) && (c <=? 70)) || ((97 <=? c) && (c <=? 102)))%N.
(** The number that digits stand for. *)
Definition number (base : N) (ds : text) : N := fold_left (fun v c => base * v + digit_value c)%N ds 0%N.

Lemma fold_big base ds : forall v, (2 <= base)%N ->
  (v * base ^ N.of_nat (length ds) <= fold_left (fun v c => base * v + digit_value c)%N ds v)%N.
Proof.
  induction ds as [|c ds IH]; intros v Hb; cbn [fold_left length]; [cbn; lia|].
  specialize (IH (base * v + digit_value c)%N Hb). rewrite Nat2N.inj_succ, N.pow_succ_r by lia.
  assert (v * (base * base ^ N.of_nat (length ds)) <= (base * v + digit_value c) * base ^ N.of_nat (length ds))%N; [|lia].
  rewrite N.mul_assoc, (N.mul_comm v base). apply N.mul_le_mono_r. lia.
Qed.
Lemma zeros_value base ds : number base (drop_while (is "0") ds) = number base ds.
Proof.
  unfold number. induction ds as [|c ds IH]; [done|]. cbn [drop_while]. destruct (is "0" c) eqn:E; [|done]. rewrite IH.
  unfold is in E. cbn [str list_ascii_of_string map existsb] in E. rewrite Bool.orb_false_r in E. apply N.eqb_eq in E as ->.
  cbn [fold_left]. f_equal. change (digit_value (N_of_ascii "0")) with 0%N. lia.
Qed.
Lemma zeros_app ds rest :
  starts_where (is "0") rest = false -> drop_while (is "0") (ds ++ rest) = drop_while (is "0") ds ++ rest.
Proof.
  intros Hr. induction ds as [|c ds IH]; cbn [app drop_while].
  - destruct rest as [|c rest]; [done|]. cbn in *. by rewrite Hr.
  - by destruct (is "0" c).
Qed.
Lemma drop_shape f (P : N -> Prop) ds : Forall P ds ->
  Forall P (drop_while f ds) /\ match drop_while f ds with c :: _ => f c = false | [] => True end.
Proof.
  induction 1 as [|c ds Hc HF IH]; [by split; [constructor|]|]. cbn [drop_while]. destruct (f c) eqn:E; [done|]. split; [by constructor|done].
Qed.

Lemma is_spec w c : is w c = true <-> In c (str w).
Proof.
  unfold is. rewrite existsb_exists. split; [intros (x & Hx & E); by apply N.eqb_eq in E as ->|]. intros H. exists c.
  split; [done|apply N.eqb_refl].
Qed.

(** Decimal references: exactly those to the character 10. *)
Theorem decimal_charref (ds rest : text) :
  ds <> [] -> Forall (fun c => is_digit c = true) ds -> starts_where is_digit rest = false ->
  is_newline_charref (str "&#" ++ ds ++ rest) = N.eqb (number 10 ds) 10.
Proof.
  intros Hne HF Hr. rewrite <- zeros_value. unfold is_newline_charref.
  assert (starts (str "&#") (str "&#" ++ ds ++ rest) = true) as -> by (apply starts_spec; eauto). cbn [negb].
  change (skipn 2 (str "&#" ++ ds ++ rest)) with (ds ++ rest).
  assert (starts_where (is "xX") (ds ++ rest) = false) as ->.
  { destruct HF as [|c ds Hc _]; [done|]. cbn [app starts_where]. apply Bool.not_true_iff_false. rewrite is_spec.
    by intros [<-|[<-|[]]]. }
  assert (starts_where (is "0") rest = false) as Hr0.
  { destruct rest as [|c rest]; [done|]. cbn [starts_where] in *. apply Bool.not_true_iff_false. rewrite is_spec. by intros [<-|[]]. }
  rewrite zeros_app by done. destruct (drop_shape (is "0") _ ds HF) as [HD HZ].
  generalize dependent (drop_while (is "0") ds). clear ds Hne HF. intros ds HD HZ.
  destruct ds as [|c ds].
  - cbn [app]. change (number 10 []) with 0%N. cbn [N.eqb]. apply Bool.andb_false_iff. left.
    destruct rest as [|x rest]; [done|]. cbn [starts_where] in Hr. apply Bool.not_true_iff_false. intros E.
    change (str "10") with [49; 48]%N in E. cbn [starts] in E. apply Bool.andb_true_iff in E as [E _]. apply N.eqb_eq in E as <-. done.
  - apply Forall_cons in HD as [Hc HD]. unfold is_digit in Hc. rewrite Bool.andb_true_iff, !N.leb_le in Hc.
    assert (c <> 48%N) as Hc0 by (intros ->; done). change (str "10") with [49; 48]%N. cbn [app starts].
    assert (digit_value c = c - 48)%N as Ec. { unfold digit_value. by rewrite (proj2 (N.leb_le c 57)) by lia. }
    destruct ds as [|d ds].
    + cbn [app]. unfold number. cbn [fold_left]. rewrite Ec. destruct (N.eqb_spec (10 * 0 + (c - 48)) 10) as [|_]; [lia|].
      apply Bool.andb_false_iff. left. apply Bool.andb_false_iff. right. destruct rest as [|x rest]; [done|]. cbn [starts_where] in Hr.
      cbn [starts]. destruct (N.eqb_spec 48 x) as [<-|]; done.
    + apply Forall_cons in HD as [Hd HD]. unfold is_digit in Hd. rewrite Bool.andb_true_iff, !N.leb_le in Hd.
      assert (digit_value d = d - 48)%N as Ed. { unfold digit_value. by rewrite (proj2 (N.leb_le d 57)) by lia. }
      unfold number. cbn [fold_left]. rewrite Ec, Ed. cbn [app starts skipn]. destruct ds as [|e ds].
      * cbn [fold_left app]. rewrite drop_0, Hr, Bool.andb_true_r, Bool.andb_true_r.
        destruct (N.eqb_spec 49 c) as [<-|]; [destruct (N.eqb_spec 48 d) as [<-|]; [done|]|]; cbn [andb]; symmetry; apply N.eqb_neq; lia.
      * apply Forall_cons in HD as [He _]. rewrite drop_0. cbn [app starts_where]. rewrite He. cbn [negb]. rewrite Bool.andb_false_r. symmetry. apply N.eqb_neq.
        pose proof (fold_big 10 (e :: ds) (10 * (10 * 0 + (c - 48)) + (d - 48))%N ltac:(lia)) as Hbig. cbn [length] in Hbig.
        rewrite Nat2N.inj_succ, N.pow_succ_r in Hbig by lia.
        assert (1 <= 10 ^ N.of_nat (length ds))%N. { apply N.lt_pred_le. cbn. apply N.neq_0_lt_0, N.pow_nonzero. lia. }
        nia.
Qed.
Print Assumptions decimal_charref.

(** Hexadecimal references to the character 10 are all found. *)
Theorem hex_charref (x : N) (ds rest : text) :
  is "xX" x = true -> Forall (fun c => is_hex c = true) ds -> number 16 ds = 10%N ->
  is_newline_charref (str "&#" ++ x :: ds ++ rest) = true.
Proof.
  intros Hx HF Hn. rewrite <- zeros_value in Hn. unfold is_newline_charref.
  assert (starts (str "&#") (str "&#" ++ x :: ds ++ rest) = true) as -> by (apply starts_spec; eauto). cbn [negb].
  change (skipn 2 (str "&#" ++ x :: ds ++ rest)) with (x :: ds ++ rest). cbn [starts_where]. rewrite Hx. cbn [skipn].
  destruct (drop_shape (is "0") _ ds HF) as [HD HZ].
  assert (drop_while (is "0") ds <> []) as Hne. { intros E. by rewrite E in Hn. }
  assert (forall l, drop_while (is "0") l <> [] -> drop_while (is "0") (l ++ rest) = drop_while (is "0") l ++ rest) as Ha.
  { induction l as [|c l IH]; [done|]. cbn [app drop_while]. by destruct (is "0" c). }
  rewrite drop_0, Ha by done. clear Ha HF. generalize dependent (drop_while (is "0") ds). clear ds. intros ds Hn HD HZ Hne.
  destruct ds as [|c ds]; [done|]. apply Forall_cons in HD as [Hc HD]. cbn [app starts_where].
  unfold number in Hn. cbn [fold_left] in Hn. pose proof (fold_big 16 ds (16 * 0 + digit_value c)%N ltac:(lia)) as Hbig.
  rewrite Hn in Hbig.
  assert (c <> 48%N) as Hc0 by (intros ->; done).
  assert (1 <= digit_value c <= 15)%N as Hv.
  { unfold is_hex, is_digit in Hc. rewrite !Bool.orb_true_iff, !Bool.andb_true_iff, !N.leb_le in Hc. unfold digit_value.
    destruct (N.leb_spec c 57); [lia|]. destruct (N.leb_spec c 70); lia. }
  destruct ds as [|d ds].
  - cbn [fold_left] in Hn. unfold is. change (str "aA") with [97; 65]%N. cbn [existsb]. unfold is_hex, is_digit in Hc.
    rewrite !Bool.orb_true_iff, !Bool.andb_true_iff, !N.leb_le in Hc. unfold digit_value in *.
    rewrite !Bool.orb_true_iff, !N.eqb_eq. destruct (N.leb_spec c 57); [lia|]. destruct (N.leb_spec c 70); lia.
  - cbn [length] in Hbig. rewrite Nat2N.inj_succ, N.pow_succ_r in Hbig by lia.
    assert (1 <= 16 ^ N.of_nat (length ds))%N. { apply N.lt_pred_le. cbn. apply N.neq_0_lt_0, N.pow_nonzero. lia. }
    nia.
Qed.
Print Assumptions hex_charref.

(** Others are found, too. *)
Theorem hex_charref_refuted : exists ds rest : text,
  Forall (fun c => is_hex c = true) ds /\ starts_where is_hex rest = false /\ number 16 ds <> 10%N /\
  is_newline_charref (str "&#x" ++ ds ++ rest) = true.
Proof. exists (str "ab"), (str ";"). split_and!; [repeat constructor|done|done|done]. Qed.
Print Assumptions hex_charref_refuted.

Lemma charref_loop (tag : text) (w : text) : tag = 60%N :: w -> ~ In 60%N w ->
  forall f s p x a t, length s < f -> s = p ++ x ++ a ++ 62%N :: t -> lowered x = tag -> ~ In 62%N a ->
  is_newline_charref t = true -> charref_after f tag s = true.
Proof.
  intros Htag Hw. induction f as [|f IH]; intros s p x a t Hl E Hx Ha Ht; [lia|]. cbn [charref_after].
  assert (lowered s = lowered p ++ tag ++ lowered (a ++ 62%N :: t)) as EL.
  { rewrite E. unfold lowered. rewrite <- Hx. unfold lowered. by rewrite !map_app. }
  unfold find_pos. destruct (split_at tag (lowered s)) as [[x0 y0]|] eqn:Es; [|by destruct (split_none _ _ Es _ _ EL)].
  destruct (split_some _ _ _ _ Es) as (E0 & Hs & Hm). apply starts_spec in Hs as [r0 ->]. cbn [option_map fst].
  specialize (Hm _ _ EL). rewrite E0 in EL.
  assert (length x = length tag) as Lx by (rewrite <- Hx; unfold lowered; by rewrite map_length).
  assert (length x0 = length p \/ length x0 + length tag <= length p) as Hpos.
  { apply app_eq_inv in EL as [(k & Ek & _)|(k & Ek & EL)].
    - left. apply (f_equal length) in Ek. rewrite app_length in Ek. unfold lowered in *. rewrite map_length in *. lia.
    - apply (f_equal length) in Ek. rewrite app_length in Ek. unfold lowered in Ek at 1. rewrite map_length in Ek.
      destruct k as [|k0 k]; [left; cbn in Ek; lia|]. right.
      apply app_eq_inv in EL as [(k2 & Ek2 & E2)|(k3 & Ek3 & _)].
      + destruct k2 as [|z k2].
        * apply (f_equal length) in Ek2. rewrite app_nil_r in Ek2. rewrite Ek2. lia.
        * exfalso. rewrite Htag in E2, Ek2. injection E2 as <- _. injection Ek2 as _ Ek2. apply Hw. rewrite Ek2.
          apply in_or_app. right. by left.
      + apply (f_equal length) in Ek3. rewrite app_length in Ek3. lia. }
  destruct Hpos as [Hp|Hp].
  - assert (skipn (length x0 + length tag) s = a ++ 62%N :: t) as ->.
    { rewrite Hp, <- Lx, <- app_length, E, app_assoc, skipn_app, skipn_all, Nat.sub_diag. done. }
    unfold from_found. change (str ">") with [62%N].
    assert (split_at [62%N] (a ++ 62%N :: t) = Some (a, 62%N :: t)) as ->.
    { clear -Ha. induction a as [|c a IH]; [done|]. cbn [app split_at starts]. destruct (N.eqb_spec 62 c) as [<-|]; [by destruct Ha; left|].
      cbn [andb]. rewrite IH; [done|]. intros ?. apply Ha. by right. }
    cbn [option_map snd]. by rewrite Ht.
  - assert (charref_after f tag (skipn (length x0 + length tag) s) = true) as Hrec.
    { apply (IH _ (skipn (length x0 + length tag) p) x a t); [|rewrite E, skipn_app|done|done|done].
      - rewrite skipn_length. assert (0 < length tag) by (rewrite Htag; cbn; lia).
        assert (length p <= length s) by (rewrite E, app_length; lia). lia.
      - f_equal. by replace (length x0 + length tag - length p) with 0 by lia. }
    rewrite Hrec. destruct (from_found _ _) as [[|c u]|]; [done| |done]. by rewrite Bool.orb_true_r.
Qed.

(** In a text that is looked at, no such reference comes after the first closing
    bracket after one of these tags. *)
Theorem admitted_charrefs (s p x a t : text) (w : string) :
  valid_for_parity s = true -> s = p ++ x ++ a ++ 62%N :: t -> In w ["<textarea"; "<pre"; "<listing"]%string ->
  map lower_n x = str w -> ~ In 62%N a -> is_newline_charref t = false.
Proof.
  intros Hv E Hw Hx Ha. apply Bool.not_true_iff_false. intros Ht.
  destruct (valid_parts s Hv) as (_ & _ & _ & _ & _ & _ & Hc & _). apply Bool.not_true_iff_false in Hc. apply Hc.
  unfold has_newline_charref. apply existsb_exists. exists w. split; [done|].
  apply (charref_loop (str w) (skipn 1 (str w))) with p x a t; [| |lia|done|done|done|done];
    destruct Hw as [<-|[<-|[<-|[]]]]; try done; cbn; intuition discriminate.
Qed.
Print Assumptions admitted_charrefs.

(** ** Characters *)

(** Characters of a text that is looked at. *)
Definition good_char (c : N) : bool :=
  negb (existsb (N.eqb c) [0; 13; 65279]%N) && ((32 <=? c) || (c =? 9) || (c =? 10))%N.
Lemma contains_one c s : contains [c] s = existsb (N.eqb c) s.
Proof.
  apply Bool.eq_iff_eq_true. rewrite contains_spec, existsb_exists. split.
  - intros (a & b & ->). exists c. split; [apply in_or_app; right; by left|apply N.eqb_refl].
  - intros (x & Hx & E). apply N.eqb_eq in E as <-. apply in_split in Hx as (a & b & ->). by exists a, b.
Qed.
Lemma chars_spec s : forallb good_char s = true <->
  contains [0%N] s = false /\ contains [65279%N] s = false /\ contains [13%N] s = false /\ existsb is_c0 s = false.
Proof.
  rewrite !contains_one. induction s as [|c s IH]; [done|]. cbn [forallb existsb]. rewrite Bool.andb_true_iff, !Bool.orb_false_iff, IH.
  assert (good_char c = true <-> N.eqb 0 c = false /\ N.eqb 65279 c = false /\ N.eqb 13 c = false /\ is_c0 c = false) as ->; [|tauto].
  rewrite !N.eqb_neq. unfold good_char. cbn [existsb]. rewrite <- (Bool.not_true_iff_false (is_c0 c)). unfold is_c0.
  rewrite Bool.andb_true_iff, Bool.negb_true_iff, !Bool.orb_false_iff, !Bool.orb_true_iff, !Bool.andb_true_iff, !N.eqb_neq, !N.eqb_eq, !N.leb_le.
  split; [|intros (? & ? & ? & ?); split_and!; try done; lia]. intros [(? & ? & ? & _) ?]. split_and!; lia.
Qed.
Theorem admitted_characters (s : text) :
  valid_for_parity s = true -> forallb good_char s = true /\ exists c t, s = c :: t /\ is_ws c = false.
Proof.
  unfold valid_for_parity. intros Hv. repeat match type of Hv with (if ?b then false else _) = true => destruct b eqn:?; [done|] end.
  split; [by apply chars_spec|]. destruct s as [|c t]; [done|]. by exists c, t.
Qed.
Print Assumptions admitted_characters.

Lemma no_tag w l : ~ In 60%N l -> split_at (str (String "<" w)) l = None.
Proof.
  intros Hn. destruct (split_at (str (String "<" w)) l) as [[x y]|] eqn:E; [|done]. exfalso.
  destruct (split_some _ _ _ _ E) as (-> & Hs & _). apply starts_spec in Hs as [r ->]. apply Hn, in_or_app. right. by left.
Qed.
(** A text without tags is looked at exactly if its characters are these. *)
Theorem plain_admitted (s : text) : ~ In 60%N s ->
  valid_for_parity s = match s with c :: _ => negb (is_ws c) && forallb good_char s | [] => false end.
Proof.
  intros Hn. destruct s as [|c t]; [done|]. set (s := c :: t) in *.
  assert (~ In 60%N (lowered s)) as Hl.
  { unfold lowered. rewrite in_map_iff. intros (x & Hx & Hin). unfold lower_n in Hx.
    destruct ((65 <=? x) && (x <=? 90))%N eqn:E; [|by subst]. rewrite Bool.andb_true_iff, !N.leb_le in E. lia. }
  assert (forall w, contains (str (String "<" w)) (lowered s) = false) as HC by (intros w; unfold contains; by rewrite no_tag).
  assert (ends_in_markup s = false) as H1.
  { unfold ends_in_markup. assert (from_last 60 (trim_end s) = None) as ->; [|done]. destruct (trim_split s) as (w & Ew & _).
    assert (~ In 60%N (trim_end s)) as Ht by (intros Hin; apply Hn; rewrite Ew; apply in_or_app; by left).
    clear -Ht. induction (trim_end s) as [|x l IH]; [done|]. cbn [from_last]. rewrite IH by (intros ?; apply Ht; by right).
    destruct (N.eqb_spec x 60) as [->|]; [|done]. by destruct Ht; left. }
  assert (svg_title (lowered s) = false) as H2 by (unfold svg_title, find_pos; by rewrite no_tag).
  assert (foreign_html (lowered s) = false) as H3 by (unfold foreign_html, from_found; by rewrite !no_tag).
  assert (math_breakout (lowered s) = false) as H4 by (unfold math_breakout, from_found; by rewrite no_tag).
  assert (html_attributes (lowered s) = false) as H5 by (unfold html_attributes, from_found; by rewrite no_tag).
  assert (has_newline_charref s = false) as H6.
  { unfold has_newline_charref. cbn [existsb charref_after length]. unfold find_pos.
    by rewrite !no_tag. }
  assert (has_mismatched_heading s = false) as H7.
  { unfold has_mismatched_heading. generalize (@None N). clear -Hl. induction (lowered s) as [|x l IH]; intros pr; [done|].
    assert (x <> 60%N) as Hx by (intros ->; apply Hl; by left). cbn [headings]. change (str "<h") with [60; 104]%N.
    change (str "</h") with [60; 47; 104]%N. cbn [starts]. rewrite (proj2 (N.eqb_neq 60 x)) by congruence. cbn [andb].
    apply IH. intros ?. apply Hl. by right. }
  assert (has_custom_element s = false) as H8.
  { apply Bool.not_true_iff_false. intros H. apply custom_elements in H as (p & x & n & r & E & _). apply Hn. rewrite E.
    apply in_or_app. right. by left. }
  assert (nested_lt false false s = false) as H9.
  { apply Bool.not_true_iff_false. intros H. apply nested_brackets in H as (p & q & q' & r & E & _). apply Hn. rewrite E.
    apply in_or_app. right. by left. }
  unfold valid_for_parity. rewrite H1, H2, H3, H4, H5, H6, H7, H8, H9.
  rewrite !HC. cbn [length Nat.eqb starts_where].
  change (starts_where is_ws s) with (is_ws c). destruct (is_ws c); cbn [negb andb].
  - by destruct (contains [0%N] s).
  - pose proof (chars_spec s) as HX. destruct (contains [0%N] s), (contains [65279%N] s), (contains [13%N] s), (existsb is_c0 s), (forallb good_char s);
      try done; exfalso; (destruct (proj1 HX eq_refl) as (? & ? & ? & ?); done) || (by specialize (proj2 HX ltac:(done))).
Qed.
Print Assumptions plain_admitted.

(** ** Pairs *)

Lemma same_text_spec : forall x y, same_text x y = true <-> x = y.
Proof.
  induction x as [|a x IH]; intros [|b y]; cbn [same_text]; try done. rewrite Bool.andb_true_iff, N.eqb_eq, IH. split.
  - by intros [-> ->].
  - by intros [= -> ->].
Qed.

(** The parts of a text that [str::get] gives are bytes of it, on both sides of a
    boundary; it gives nothing elsewhere. *)
Lemma utf8_app : forall x y, utf8 (x ++ y) = (utf8 x ++ utf8 y)%string.
Proof. induction x as [|c x IH]; intros y; [done|]. cbn [app utf8]. by rewrite IH, PropStem.append_assoc. Qed.
Theorem get_parts (s : text) (n : nat) : Forall scalar s ->
  match upto s n, onwards s n with
  | Some x, Some y => s = x ++ y /\ blen x = n
  | None, None => forall x y, s = x ++ y -> blen x <> n
  | _, _ => False
  end.
Proof.
  intros HF. revert n. induction HF as [|c s Hc HF IH]; intros n.
  - destruct n as [|n]; [done|]. cbn. intros x y E. by destruct x.
  - destruct n as [|n]; [done|]. cbn [upto onwards]. set (w := String.length (enc c)).
    destruct (PropStem.enc_shape c Hc) as (b & r & Eb & _). assert (0 < w) as Hw by (unfold w; rewrite Eb; cbn; lia).
    assert (forall x, blen (c :: x) = w + blen x) as Hb.
    { intros x. unfold blen. cbn [utf8]. by rewrite PropStem.append_len. }
    destruct (Nat.leb_spec w (S n)) as [Hle|Hgt].
    + specialize (IH (S n - w)). destruct (upto s (S n - w)) as [x|], (onwards s (S n - w)) as [y|]; cbn [option_map]; try done.
      * destruct IH as [-> E]. split; [done|]. rewrite Hb. lia.
      * intros [|c' x] y E; [done|]. injection E as <- E. specialize (IH x y E). rewrite Hb. lia.
    + intros [|c' x] y E; [done|]. injection E as <- E. rewrite Hb. lia.
Qed.
Print Assumptions get_parts.

Lemma scalar_str w : Forall scalar (str w).
Proof.
  induction w as [|a w IH]; [constructor|]. unfold str. cbn [list_ascii_of_string map]. constructor; [|done].
  unfold scalar. pose proof (N_ascii_bounded a). lia.
Qed.
Lemma scalar_upto s n : Forall scalar s -> Forall scalar (or_empty (upto s n)) /\ Forall scalar (or_empty (onwards s n)).
Proof.
  intros HF. pose proof (get_parts s n HF) as H. destruct (upto s n) as [x|], (onwards s n) as [y|]; try done.
  - destruct H as [-> _]. by apply Forall_app in HF.
  - split; constructor.
Qed.
Lemma scalar_mutated html k p1 p2 : Forall scalar html -> Forall scalar (mutated html k p1 p2).
Proof.
  intros HF. assert (forall n, Forall scalar (or_empty (upto html n))) as HU by (intros n; by apply scalar_upto).
  assert (forall n, Forall scalar (or_empty (onwards html n))) as HO by (intros n; by apply scalar_upto).
  unfold mutated. destruct k as [|[|[|[|[|[|[|k]]]]]]].
  - specialize (HU (Nat.max (p1 mod blen html) 1)). by destruct (upto html _).
  - apply HO.
  - by apply Forall_app.
  - apply Forall_app. split; [done|]. apply Forall_app. split; [apply scalar_str|done].
  - apply Forall_app. split; [done|]. unfold between. specialize (HU (Nat.min (Nat.max ((p1 + p2) mod blen html) (p1 mod blen html + 1)) (blen html))).
    destruct (upto html _) as [t|]; [|constructor]. by apply scalar_upto.
  - by apply Forall_app.
  - apply Forall_insert; [done|]. unfold scalar. assert (p2 mod 26 < 26) by (apply Nat.mod_upper_bound; lia). lia.
  - apply Forall_app. split; [done|apply scalar_str].
Qed.

(** How the second text comes from the first. *)
Definition derived (html b : text) (kind : nat) : Prop :=
  match kind with
  | 0 => exists r, html = b ++ r
  | 1 => exists p, html = p ++ b
  | 2 => exists p m q, html = p ++ m ++ q /\ (b = p ++ q \/ b = p \/ b = q \/ b = [])
  | 3 => exists w, In w ["<div>"; "</div>"; "<span>x</span>"; "text"]%string /\
           ((exists p q, html = p ++ q /\ b = p ++ str w ++ q) \/ b = str w)
  | 4 => exists p m q, html = p ++ m ++ q /\ b = html ++ m
  | 5 => b = [] \/ exists p q, html = p ++ q /\ b = q ++ p
  | 6 => length b = length html /\ (b = html \/ exists p x y q, html = p ++ x :: q /\ b = p ++ y :: q /\ 97 <= y < 123)%N
  | _ => exists w, In w ["<p>new</p>"; "<b>bold</b>"; "<!-- comment -->"; " extra text"]%string /\ b = html ++ str w
  end.
Theorem derived_text (html : text) (kind p1 p2 : nat) :
  Forall scalar html -> derived html (mutated html kind p1 p2) kind.
Proof.
  intros HF. pose proof (fun n => get_parts html n HF) as HG. unfold mutated, derived.
  destruct kind as [|[|[|[|[|[|[|kind]]]]]]].
  - specialize (HG (Nat.max (p1 mod blen html) 1)). destruct (upto html _) as [x|], (onwards html _) as [y|]; try done.
    + destruct HG as [-> _]. by exists y.
    + exists []. by rewrite app_nil_r.
  - specialize (HG (p1 mod blen html)). destruct (upto html _) as [x|], (onwards html _) as [y|]; try done.
    + destruct HG as [-> _]. by exists x.
    + exists html. cbn. by rewrite app_nil_r.
  - set (i := Nat.min _ _). set (j := Nat.max _ _). assert (i <= j) as Hij by (unfold i, j; lia). clearbody i j.
    pose proof (HG i) as H1. pose proof (HG j) as H2.
    destruct (upto html i) as [x|], (onwards html i) as [y|]; try done;
      destruct (upto html j) as [x'|], (onwards html j) as [y'|]; try done; cbn [or_empty].
    + destruct H1 as [E1 L1], H2 as [E2 L2]. assert (exists m, y = m ++ y') as [m ->].
      { rewrite E1 in E2. apply app_eq_inv in E2 as [(k & -> & ->)|(k & -> & Ek)]; [|by exists k].
        exists []. cbn. destruct k as [|c k]; [done|]. exfalso. unfold blen in *. rewrite utf8_app, PropStem.append_len in L1.
        assert (Forall scalar (c :: k)) as HS. { rewrite E1, <- app_assoc in HF. apply Forall_app in HF as [_ HF]. by apply Forall_app in HF as [? _]. }
        apply Forall_cons in HS as [Hc _]. destruct (PropStem.enc_shape c Hc) as (z & r & Ez & _). cbn [utf8] in L1.
        rewrite Ez in L1. cbn in L1. lia. }
      exists x, m, y'. split; [done|]. by left.
    + destruct H1 as [E1 _]. exists x, y, []. rewrite !app_nil_r. eauto.
    + destruct H2 as [E2 _]. exists x', [], y'. cbn. split; [done|]. eauto.
    + exists html, [], []. rewrite !app_nil_r. eauto.
  - set (w := match p2 mod 4 with 0 => _ | _ => _ end). exists w. split.
    { unfold w. destruct (p2 mod 4) as [|[|[|n]]]; cbn; tauto. }
    specialize (HG (p1 mod (blen html + 1))). destruct (upto html _) as [x|], (onwards html _) as [y|]; try done.
    + destruct HG as [-> _]. left. by exists x, y.
    + right. cbn [or_empty app]. by rewrite app_nil_r.
  - set (i := p1 mod blen html). set (j := Nat.min _ _). clearbody i j. unfold between. pose proof (HG j) as H2.
    destruct (upto html j) as [t|]; [|by exists html, [], []; cbn; rewrite !app_nil_r].
    destruct (onwards html j) as [q|]; [|done]. destruct H2 as [E2 _]. assert (Forall scalar t) as HT.
    { rewrite E2 in HF. by apply Forall_app in HF as [? _]. }
    pose proof (get_parts t i HT) as H3. destruct (upto t i) as [x|], (onwards t i) as [y|]; try done; cbn [or_empty].
    + destruct H3 as [-> _]. exists x, y, q. by rewrite E2, <- app_assoc.
    + by exists html, [], []; cbn; rewrite !app_nil_r.
  - specialize (HG (p1 mod (Nat.max (blen html) 1))). destruct (upto html _) as [x|], (onwards html _) as [y|]; try done; [|by left].
    destruct HG as [-> _]. right. by exists x, y.
  - rewrite insert_length. split; [done|]. set (i := p1 mod blen html). assert (p2 mod 26 < 26) by (apply Nat.mod_upper_bound; lia).
    destruct (Nat.lt_ge_cases i (length html)) as [Hi|Hi].
    + right. destruct (lookup_lt_is_Some_2 html i Hi) as [x Ex]. exists (take i html), x, (N.of_nat (p2 mod 26) + 97)%N, (drop (S i) html).
      split_and!; [by rewrite take_drop_middle|by rewrite insert_take_drop|lia|lia].
    + left. by rewrite list_insert_ge.
  - set (w := match p2 mod 4 with 0 => _ | _ => _ end). exists w. split; [|done].
    unfold w. destruct (p2 mod 4) as [|[|[|n]]]; cbn; tauto.
Qed.
Print Assumptions derived_text.

Section Pairs.
  Variable from_utf8 : string -> option text.
  (** [std::str::from_utf8] *)
  Hypothesis from_utf8_ok : forall bs s, from_utf8 bs = Some s -> Forall scalar s /\ utf8 s = bs.

  (** What the targets get: two different texts in UTF-8 that pass the check; the
      first is the data after three bytes. *)
  Theorem prepared_pair (data : string) (x y : text) :
    prepare_html_inputs from_utf8 data = Some (x, y) ->
    x <> y /\ valid_for_parity x = true /\ valid_for_parity y = true /\
    Forall scalar x /\ Forall scalar y /\ (exists h, String.length h = 3 /\ data = (h ++ utf8 x)%string) /\
    existsb (fun c => negb (is_ws c)) x = true /\ existsb (fun c => negb (is_ws c)) y = true.
  Proof using from_utf8_ok.
    unfold prepare_html_inputs, derive_html_pair. destruct data as [|b0 [|b1 [|b2 rest]]]; try done.
    destruct (Nat.ltb _ _); [done|]. destruct (from_utf8 rest) as [html|] eqn:E; [|done].
    destruct (from_utf8_ok rest html E) as [HF Eb]. destruct html as [|c html]; [done|].
    pose proof (scalar_mutated (c :: html) (nat_of_ascii b0 mod 8) (nat_of_ascii b1) (nat_of_ascii b2) HF) as HM.
    revert HM. generalize (mutated (c :: html) (nat_of_ascii b0 mod 8) (nat_of_ascii b1) (nat_of_ascii b2)). intros b HM.
    destruct (same_text (c :: html) b && negb (Nat.eqb (length b) 0)) eqn:Es; [done|].
    destruct (valid_for_parity (c :: html)) eqn:V1; [|done]. destruct (valid_for_parity b) eqn:V2; [|done]. cbn [negb orb].
    assert (forall s, Nat.eqb (length (trim_end (trim_start s))) 0 = false -> existsb (fun c => negb (is_ws c)) s = true) as Ht.
    { intros s Hs. apply Bool.not_false_iff_true. intros Hf. assert (trim_start s = []) as Et.
      { clear Hs. induction s as [|a s IH]; [done|]. cbn [existsb] in Hf. apply Bool.orb_false_iff in Hf as [H1 H2].
        apply Bool.negb_false_iff in H1. unfold trim_start. cbn [drop_while]. rewrite H1. by apply IH. }
      by rewrite Et in Hs. }
    destruct (_ || _) eqn:T; [done|]. apply Bool.orb_false_iff in T as [T1 T2].
    intros [= <- <-]. split_and!; try done.
    - intros E'. rewrite (proj2 (same_text_spec _ _) E'), <- E' in Es. done.
    - exists (String b0 (String b1 (String b2 ""))). split; [done|]. by rewrite Eb.
    - by apply Ht.
    - by apply Ht.
  Qed.
End Pairs.
Print Assumptions prepared_pair.

(** ** What the check lets through *)

(** The check is to leave out texts with [<title>] inside [<svg>], with an [<html>]
    inside [<svg>], and with a newline written as a character reference at the start
    of a [<pre>].  It looks for the first [<title], the first [<math] and the first
    closing bracket only. *)
Theorem filter_gaps_refuted :
  (exists p q r : text, valid_for_parity (p ++ str "<svg><title>" ++ q ++ str "</title></svg>" ++ r) = true) /\
  (exists p q r : text, valid_for_parity (p ++ str "<svg><html lang=en>" ++ q ++ str "</svg>" ++ r) = true) /\
  (exists r : text, valid_for_parity (str "<pre title='>'>&#10;" ++ r) = true).
Proof.
  split_and!.
  - exists (str "<title></title>"), (str "x"), []. reflexivity.
  - exists (str "<html>"), [], (str "<math></math>"). reflexivity.
  - exists (str "x</pre>"). reflexivity.
Qed.
Print Assumptions filter_gaps_refuted.

(** A decoder for ASCII. *)
Definition ex_utf8 (bs : string) : option text :=
  if forallb (fun c => N.ltb c 128) (str bs) then Some (str bs) else None.
Lemma ex_utf8_ok bs s : ex_utf8 bs = Some s -> Forall scalar s /\ utf8 s = bs.
Proof.
  unfold ex_utf8. destruct (forallb _ _) eqn:E; [|done]. intros [= <-]. split; [apply scalar_str|].
  induction bs as [|c bs IH]; [done|]. cbn [str list_ascii_of_string map forallb] in E. apply Bool.andb_true_iff in E as [E1 E2].
  cbn [str list_ascii_of_string map utf8]. unfold enc. rewrite E1. cbn [append]. f_equal; [|by apply IH].
  unfold byte. apply ascii_N_embedding.
Qed.
Definition ex_input : text := str "<h1>a</h1><p class='x-y'>1</p>".
Example inputs_example :
  valid_for_parity ex_input = true /\
  lowered ex_input = [] ++ str "<h" ++ 49%N :: str ">a" ++ str "</h" ++ 49%N :: str "><p class='x-y'>1</p>" /\
  valid_for_parity (str "<PRE id=a>x&#10;</PRE>") = true /\ valid_for_parity (str "<html ></html>") = true /\
  map (fun k => mutated (str "abcdef") k 1 2) [0; 1; 2; 3; 4; 5; 6; 7]
  = map str ["a"; "bcdef"; "adef"; "a<span>x</span>bcdef"; "abcdefbc"; "bcdefa"; "accdef"; "abcdef<!-- comment -->"]%string /\
  is_newline_charref (str "&#0010;") = true /\ is_newline_charref (str "&#100;") = false /\ is_newline_charref (str "&#X0A") = true /\
  split_at (str "<p") ex_input = Some (str "<h1>a</h1>", str "<p class='x-y'>1</p>") /\
  has_custom_element (str "a<x-y>") = true /\ nested_lt false false (str "<a<b>") = true /\
  map valid_for_parity [str "<h1>a</h2>"; str "1 < 2"; str "a<x-y>"; str "<p><SELECT>"; str "<pre>&#10;x</pre>"; str "<a<b>"]
  = [false; false; false; false; false; false] /\
  prepare_html_inputs ex_utf8 "003<h1>a</h1>" = None /\
  prepare_html_inputs ex_utf8 "312<p>a</p>" = Some (str "<p>a</p>", str "<p>a<span>x</span></p>") /\
  prepare_html_inputs ex_utf8 "700<h1>a</h1>" = Some (str "<h1>a</h1>", str "<h1>a</h1><p>new</p>").
Proof. vm_compute. split_and!; reflexivity. Qed.
