(** Property theorems on the loader script: C56. *)
From Verif Require Import Base Server Loader.
Local Open Scope string_scope.

(** The text split at its double quotes: pieces at odd places (from 0) are string literals of
    the script (or the value of [type]), the others are code. *)
Fixpoint at_quotes (s : string) : list string :=
  match s with
  | EmptyString => [""]
  | String c s' =>
      let l := at_quotes s' in
      if Ascii.eqb c """"%char then "" :: l
      else match l with x :: l' => String c x :: l' | [] => [String c ""] end
  end.

(** A text that means itself between double quotes in a script: no double quote, no backslash,
    no line feed, no carriage return. *)
Definition literal_char (c : ascii) : bool :=
  negb (Ascii.eqb c """"%char) && negb (Ascii.eqb c "\"%char) &&
  negb (Nat.eqb (Ascii.nat_of_ascii c) 10) && negb (Nat.eqb (Ascii.nat_of_ascii c) 13).
Fixpoint literal (s : string) : bool :=
  match s with EmptyString => true | String c s' => literal_char c && literal s' end.
(** The text of a script element ends at the first [</script], in any case. *)
Definition script_end (s : string) : option nat := str_find "</script" (to_ascii_lowercase s).

Lemma at_quotes_app a : forall b, literal a = true -> at_quotes (a ++ String """" b) = a :: at_quotes b.
Proof.
  induction a as [|c a IH]; intros b Ha; [done|]. cbn [literal] in Ha. apply andb_prop in Ha as [Hc Ha].
  cbn [at_quotes String.append]. rewrite (IH b Ha).
  unfold literal_char in Hc. destruct (Ascii.eqb c """"%char); [done|done].
Qed.

(** The four arguments are the four literals after the [type] of the element, and the code
    around them is always the same. *)
Theorem loader_literals : forall js wasm sel ws,
  literal js = true -> literal wasm = true -> literal sel = true -> literal ws = true ->
  at_quotes (loader_script js wasm sel ws) =
    ["<script type="; "module";
     ">" ++ newline ++ "import init, { start_live_reload } from "; js;
     ";" ++ newline ++ "await init("; wasm;
     ");" ++ newline ++ "start_live_reload("; ws; ", "; sel;
     ");" ++ newline ++ "</script>"].
Proof.
  intros js wasm sel ws H1 H2 H3 H4. unfold loader_script, newline. cbn [String.append].
  cbn [at_quotes Ascii.eqb Bool.eqb]. rewrite (at_quotes_app js) by done.
  cbn [at_quotes Ascii.eqb Bool.eqb]. rewrite (at_quotes_app wasm) by done.
  cbn [at_quotes Ascii.eqb Bool.eqb]. rewrite (at_quotes_app ws) by done.
  cbn [at_quotes Ascii.eqb Bool.eqb]. rewrite (at_quotes_app sel) by done. reflexivity.
Qed.
Print Assumptions loader_literals.

Lemma lower_app a b : to_ascii_lowercase (a ++ b) = to_ascii_lowercase a ++ to_ascii_lowercase b.
Proof. induction a as [|c a IH]; [done|]. cbn. by rewrite IH. Qed.
Lemma sapp_assoc (a b c : string) : (a ++ b) ++ c = a ++ b ++ c.
Proof. induction a as [|x a IH]; [done|]. cbn. by rewrite IH. Qed.
Lemma slength_app (a b : string) : String.length (a ++ b) = String.length a + String.length b.
Proof. induction a as [|x a IH]; [done|]. cbn. by rewrite IH. Qed.
Fixpoint no_char (q : ascii) (s : string) : bool :=
  match s with EmptyString => true | String c s' => negb (Ascii.eqb c q) && no_char q s' end.
Lemma prefix_cut q b : forall n a, no_char q n = true -> String.prefix n (a ++ String q b) = String.prefix n a.
Proof.
  induction n as [|c n IH]; intros a Hn; [by destruct a|]. cbn [no_char] in Hn. apply andb_prop in Hn as [Hc Hn].
  destruct a as [|d a]; cbn [String.append String.prefix].
  - destruct (ascii_dec c q) as [->|]; [|done]. by rewrite Ascii.eqb_refl in Hc.
  - destruct (ascii_dec c d); [by apply IH|done].
Qed.
Lemma find_cut q n b : n <> "" -> no_char q n = true -> forall a,
  str_find n (a ++ String q b) =
  match str_find n a with
  | Some k => Some k
  | None => match str_find n b with Some k => Some (String.length a + S k) | None => None end
  end.
Proof.
  intros Hne Hn. induction a as [|c a IH].
  - cbn [String.append]. destruct n as [|d n]; [done|]. cbn [str_find String.prefix].
    cbn [no_char] in Hn. apply andb_prop in Hn as [Hc _]. destruct (ascii_dec d q) as [->|]; [by rewrite Ascii.eqb_refl in Hc|done].
  - change ((String c a) ++ String q b) with (String c (a ++ String q b)). cbn [str_find].
    change (String c (a ++ String q b)) with ((String c a) ++ String q b). rewrite prefix_cut by done.
    destruct (String.prefix n (String c a)); [done|]. rewrite IH.
    destruct (str_find n a); [done|]. by destruct (str_find n b).
Qed.

Lemma end_cut a b : script_end a = None ->
  script_end (a ++ String """" b) = option_map (fun k => String.length a + S k) (script_end b).
Proof.
  unfold script_end. intros Ha. rewrite lower_app. change (to_ascii_lowercase (String """" b)) with (String """" (to_ascii_lowercase b)).
  rewrite find_cut by done. rewrite Ha.
  assert (forall s, String.length (to_ascii_lowercase s) = String.length s) as HL.
  { intros s. induction s as [|c s IH]; [done|]. cbn. by rewrite IH. }
  rewrite HL. by destruct (str_find _ _).
Qed.

(** If no argument has [</script] in it, the script element ends where the text ends. *)
Theorem loader_ends : forall js wasm sel ws,
  script_end js = None -> script_end wasm = None -> script_end sel = None -> script_end ws = None ->
  exists text, loader_script js wasm sel ws = text ++ "</script>" /\
    script_end (loader_script js wasm sel ws) = Some (String.length text).
Proof.
  intros js wasm sel ws H1 H2 H3 H4.
  exists ("<script type=""module"">" ++ newline ++
    "import init, { start_live_reload } from """ ++ js ++ """;" ++ newline ++
    "await init(""" ++ wasm ++ """);" ++ newline ++
    "start_live_reload(""" ++ ws ++ """, """ ++ sel ++ """);" ++ newline).
  split; [unfold loader_script; by rewrite !sapp_assoc|].
  unfold loader_script, newline.
  change ("<script type=""module"">" ++ String (Ascii.ascii_of_nat 10) "" ++
    "import init, { start_live_reload } from """ ++ js ++ """;" ++ String (Ascii.ascii_of_nat 10) "" ++
    "await init(""" ++ wasm ++ """);" ++ String (Ascii.ascii_of_nat 10) "" ++
    "start_live_reload(""" ++ ws ++ """, """ ++ sel ++ """);" ++ String (Ascii.ascii_of_nat 10) "" ++ "</script>")
    with ("<script type=""module"">" ++ String (Ascii.ascii_of_nat 10) "import init, { start_live_reload } from " ++ String """" (
      js ++ String """" (";" ++ String (Ascii.ascii_of_nat 10) "await init(" ++ String """" (
      wasm ++ String """" (");" ++ String (Ascii.ascii_of_nat 10) "start_live_reload(" ++ String """" (
      ws ++ String """" (", " ++ String """" (sel ++ String """" (");" ++ String (Ascii.ascii_of_nat 10) "</script>"))))))))).
  rewrite <- !sapp_assoc. rewrite !end_cut by (done || reflexivity).
  change (script_end _) with (Some 3). cbn [option_map]. f_equal. rewrite !slength_app. cbn. lia.
Qed.
Print Assumptions loader_ends.

Example loader_example :
  let js := "/_/hotmeal_wasm.js" in let wasm := "/_/hotmeal_wasm_bg.wasm?v=1&w='2'" in
  let sel := "main > #app" in let ws := "ws://localhost:3000/_lr" in
  forallb literal [js; wasm; sel; ws] = true /\ map script_end [js; wasm; sel; ws] = [None; None; None; None] /\
  at_quotes (loader_script js wasm sel ws) !! 9 = Some sel /\
  script_end (loader_script js wasm sel ws) = Some (String.length (loader_script js wasm sel ws) - 9).
Proof. vm_compute. repeat split. Qed.

(** Finding: arguments are not escaped.  A selector with double quotes, as in
    [[id="app"]], breaks the script; any code can be put in. *)
Theorem loader_quote_refuted : exists js wasm sel ws,
  literal js = true /\ literal wasm = true /\ literal ws = true /\ sel = "[id=""app""]" /\
  at_quotes (loader_script js wasm sel ws) !! 9 = Some "[id=" /\
  at_quotes (loader_script js wasm sel ws) !! 10 = Some "app".
Proof. exists "a.js", "b.wasm", "[id=""app""]", "ws://h". vm_compute. repeat split. Qed.
Print Assumptions loader_quote_refuted.

(** Finding: an argument can end the element. *)
Theorem loader_end_refuted : exists js wasm sel ws,
  literal js = true /\ literal wasm = true /\ literal sel = true /\ literal ws = true /\
  script_end (loader_script js wasm sel ws) <> Some (String.length (loader_script js wasm sel ws) - 9).
Proof.
  exists "a.js", "b.wasm", "body", "ws://h/?</SCRIPT><img src=x>". split_and!; try (vm_compute; reflexivity).
  vm_compute. discriminate.
Qed.
Print Assumptions loader_end_refuted.
