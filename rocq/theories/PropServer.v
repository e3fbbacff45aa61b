(** Property theorems on the live-reload server: C22, C24, C25. *)
From Verif Require Import Base Arena Dom Server ServerProofs.
Local Open Scope string_scope.

(** ** Call histories *)

Inductive call :=
| CCacheHtml (route html : string)
| CCacheHead (route inj : string)
| CDiff (route html : string)
| CDiffHead (route html inj : string)
| CRemove (route : string)
| CClear.

Section Histories.
  Variable diff_html : string -> string -> option (list patch).

  Definition step (s : server) (c : call) : server :=
    match c with
    | CCacheHtml r h => fst (cache_html s r h)
    | CCacheHead r i => fst (cache_head s r i)
    | CDiff r h => fst (diff_route diff_html s r h)
    | CDiffHead r h i => fst (diff_route_with_head diff_html s r h i)
    | CRemove r => fst (remove_route s r)
    | CClear => server_clear s
    end.
  Definition run (hist : list call) : server := fold_left step hist server_new.
End Histories.

(** Specification, latest call first: the HTML and the head injections most
    recently given for route [r] since the last removal. *)
Fixpoint last_html (r : string) (rev_hist : list call) : option string :=
  match rev_hist with
  | [] => None
  | c :: h =>
      match c with
      | CCacheHtml r' x | CDiff r' x | CDiffHead r' x _ => if String.eqb r' r then Some x else last_html r h
      | CRemove r' => if String.eqb r' r then None else last_html r h
      | CClear => None
      | CCacheHead _ _ => last_html r h
      end
  end.
Fixpoint last_head (r : string) (rev_hist : list call) : option string :=
  match rev_hist with
  | [] => None
  | c :: h =>
      match c with
      | CCacheHead r' x | CDiffHead r' _ x => if String.eqb r' r then Some x else last_head r h
      | CRemove r' => if String.eqb r' r then None else last_head r h
      | CClear => None
      | CCacheHtml _ _ | CDiff _ _ => last_head r h
      end
  end.

Lemma diff_route_html diff s r h r' :
  hm_get (html_cache (fst (diff_route diff s r h))) r' =
  (if String.eqb r r' then Some h else hm_get (html_cache s) r') /\
  head_cache (fst (diff_route diff s r h)) = head_cache s.
Proof.
  unfold diff_route. destruct (hm_get (html_cache s) r) as [old|] eqn:E.
  - destruct (String.eqb_spec old h) as [->|Hne].
    + split; [|done]. cbn [fst]. destruct (String.eqb_spec r r') as [<-|]; [done|done].
    + destruct (diff old h) as [[|p ps]|]; cbn [fst html_cache head_cache]; (split; [apply hm_get_insert|done]).
  - cbn [fst html_cache head_cache]. split; [apply hm_get_insert|done].
Qed.

Lemma step_spec diff s c r :
  hm_get (html_cache (step diff s c)) r =
    match c with
    | CCacheHtml r' x | CDiff r' x | CDiffHead r' x _ =>
        if String.eqb r' r then Some x else hm_get (html_cache s) r
    | CRemove r' => if String.eqb r' r then None else hm_get (html_cache s) r
    | CClear => None
    | CCacheHead _ _ => hm_get (html_cache s) r
    end /\
  hm_get (head_cache (step diff s c)) r =
    match c with
    | CCacheHead r' x | CDiffHead r' _ x => if String.eqb r' r then Some x else hm_get (head_cache s) r
    | CRemove r' => if String.eqb r' r then None else hm_get (head_cache s) r
    | CClear => None
    | CCacheHtml _ _ | CDiff _ _ => hm_get (head_cache s) r
    end.
Proof.
  destruct c as [r' x|r' x|r' x|r' x i|r'|]; cbn [step].
  - unfold cache_html; cbn [fst html_cache head_cache]. split; [apply hm_get_insert|done].
  - unfold cache_head; cbn [fst html_cache head_cache]. split; [done|apply hm_get_insert].
  - destruct (diff_route_html diff s r' x r) as [-> ->]. done.
  - unfold diff_route_with_head, cache_head.
    match goal with |- context [if ?c then _ else _] => destruct c end.
    + cbn [fst html_cache head_cache]. split; apply hm_get_insert.
    + match goal with |- context [diff_route diff ?z r' x] => destruct (diff_route_html diff z r' x r) as [-> ->] end.
      cbn [html_cache head_cache]. split; [done|apply hm_get_insert].
  - unfold remove_route; cbn [fst html_cache head_cache]. split; apply hm_get_remove.
  - done.
Qed.

Lemma run_snoc diff hist c : run diff (hist ++ [c])%list = step diff (run diff hist) c.
Proof. unfold run. by rewrite fold_left_app. Qed.

Lemma run_spec diff hist r :
  hm_get (html_cache (run diff hist)) r = last_html r (rev hist) /\
  hm_get (head_cache (run diff hist)) r = last_head r (rev hist).
Proof.
  induction hist as [|c hist [IH1 IH2]] using rev_ind; [done|].
  rewrite run_snoc, rev_app_distr. cbn [rev app]. destruct (step_spec diff (run diff hist) c r) as [-> ->].
  rewrite IH1, IH2. by destruct c.
Qed.

Lemma nodup_step diff s c : NoDup (cached_routes s) -> NoDup (cached_routes (step diff s c)).
Proof.
  intros H. destruct c as [r' x|r' x|r' x|r' x i|r'|]; cbn [step].
  - by apply hm_insert_nodup.
  - done.
  - unfold diff_route. destruct (hm_get (html_cache s) r'); [|by apply hm_insert_nodup].
    destruct (String.eqb _ x); [done|]. destruct (diff _ x) as [[|p ps]|]; by apply hm_insert_nodup.
  - unfold diff_route_with_head, cache_head.
    match goal with |- context [if ?c then _ else _] => destruct c end; [by apply hm_insert_nodup|].
    unfold diff_route. cbn [html_cache]. destruct (hm_get (html_cache s) r'); [|by apply hm_insert_nodup].
    destruct (String.eqb _ x); [done|]. destruct (diff _ x) as [[|p ps]|]; by apply hm_insert_nodup.
  - by apply hm_remove_nodup.
  - constructor.
Qed.

(** ** C22 *)

(** The cache holds the last HTML of every route; [cached_routes] lists exactly
    the routes that have one, each once; [cache_html] and [remove_route] report
    what was there. *)
Theorem cache_is_last_html : forall diff (hist : list call) (r : string),
  let s := run diff hist in
  hm_get (html_cache s) r = last_html r (rev hist) /\
  hm_get (head_cache s) r = last_head r (rev hist) /\
  (r ∈ cached_routes s <-> exists h, last_html r (rev hist) = Some h) /\
  NoDup (cached_routes s) /\
  (forall h, snd (cache_html s r h) = last_html r (rev hist)) /\
  (snd (remove_route s r) = true <->
     (exists h, last_html r (rev hist) = Some h) \/ (exists i, last_head r (rev hist) = Some i)).
Proof.
  intros diff hist r s. destruct (run_spec diff hist r) as [E1 E2]. fold s in E1, E2.
  split; [done|]. split; [done|]. split; [unfold cached_routes; rewrite hm_keys, E1; done|].
  split.
  - subst s. clear. induction hist as [|c hist IH] using rev_ind; [constructor|].
    rewrite run_snoc. by apply nodup_step.
  - split; [done|]. unfold remove_route; cbn [snd]. rewrite E1, E2.
    destruct (last_html r (rev hist)) as [h|]; [split; eauto|].
    destruct (last_head r (rev hist)) as [i|]; [split; eauto|].
    split; [done|]. intros [[? ?]|[? ?]]; done.
Qed.
Print Assumptions cache_is_last_html.

(** Does the call concern route [r]? *)
Definition concerns (r : string) (c : call) : bool :=
  match c with
  | CCacheHtml r' _ | CCacheHead r' _ | CDiff r' _ | CDiffHead r' _ _ | CRemove r' => String.eqb r' r
  | CClear => true
  end.

Lemma last_filter r h :
  last_html r (List.filter (concerns r) h) = last_html r h /\
  last_head r (List.filter (concerns r) h) = last_head r h.
Proof.
  induction h as [|c h [IH1 IH2]]; [done|]. cbn [List.filter].
  destruct c; cbn [concerns last_html last_head];
    repeat match goal with |- context [String.eqb ?x ?y] => destruct (String.eqb x y) eqn:? end;
    cbn [last_html last_head]; rewrite ?IH1, ?IH2;
    repeat match goal with H : String.eqb ?x ?y = _ |- _ => rewrite ?H; clear H end; done.
Qed.

Lemma filter_rev {A} (f : A -> bool) l : List.filter f (rev l) = rev (List.filter f l).
Proof.
  induction l as [|x l IH]; [done|]. cbn [rev List.filter]. rewrite List.filter_app, IH. cbn.
  destruct (f x); cbn; [done|by rewrite app_nil_r].
Qed.

(** What the server answers for a route only depends on the calls for this
    route (and on [clear]). *)
Theorem routes_are_independent : forall diff (hist : list call) (r html inj : string),
  let s := run diff hist in
  let s' := run diff (List.filter (concerns r) hist) in
  snd (diff_route diff s r html) = snd (diff_route diff s' r html) /\
  snd (diff_route_with_head diff s r html inj) = snd (diff_route_with_head diff s' r html inj) /\
  snd (cache_head s r inj) = snd (cache_head s' r inj) /\
  snd (cache_html s r html) = snd (cache_html s' r html) /\
  snd (remove_route s r) = snd (remove_route s' r).
Proof.
  intros diff hist r html inj s s'.
  assert (E : hm_get (html_cache s) r = hm_get (html_cache s') r /\
              hm_get (head_cache s) r = hm_get (head_cache s') r).
  { destruct (run_spec diff hist r) as [E1 E2]. destruct (run_spec diff (List.filter (concerns r) hist) r) as [E3 E4].
    fold s in E1, E2. fold s' in E3, E4. rewrite E1, E2, E3, E4, <- filter_rev.
    destruct (last_filter r (rev hist)) as [-> ->]. done. }
  destruct E as [E1 E2].
  assert (E3 : forall z z', hm_get (html_cache z) r = hm_get (html_cache z') r ->
               snd (diff_route diff z r html) = snd (diff_route diff z' r html)).
  { intros z z' Ez. unfold diff_route. rewrite Ez. destruct (hm_get (html_cache z') r) as [o|]; [|done].
    destruct (String.eqb o html); [done|]. by destruct (diff o html) as [[|p ps]|]. }
  assert (E4 : snd (cache_head s r inj) = snd (cache_head s' r inj)) by (unfold cache_head; cbn [snd]; by rewrite E2).
  split; [by apply E3|]. split; [|split; [done|split]].
  - unfold diff_route_with_head. unfold cache_head in E4 |- *. cbn [snd] in E4. rewrite E4.
    match goal with |- context [if ?c then _ else _] => destruct c end; [done|]. by apply E3.
  - unfold cache_html; cbn [snd]. done.
  - unfold remove_route; cbn [snd]. by rewrite E1, E2.
Qed.
Print Assumptions routes_are_independent.

Definition ex_hist : list call :=
  [CCacheHtml "/a" "1"; CDiff "/b" "2"; CDiffHead "/a" "3" "h"; CRemove "/b"; CCacheHead "/b" ""; CDiff "/a" "3"].
Example cache_example :
  let s := run (fun _ _ => Some []) ex_hist in
  hm_get (html_cache s) "/a" = Some "3" /\ hm_get (html_cache s) "/b" = None /\
  cached_routes s = ["/a"] /\ snd (remove_route s "/b") = true.
Proof. vm_compute. auto. Qed.

(** ** C24 *)

Theorem head_change_reported_exactly : forall diff (hist : list call) (r html inj : string),
  let s := run diff hist in
  (exists r', snd (diff_route_with_head diff s r html inj) = Some (EvHeadChanged r')) <->
  match last_head r (rev hist) with
  | Some old => old <> inj
  | None => inj <> ""
  end.
Proof.
  intros diff hist r html inj s. destruct (run_spec diff hist r) as [_ E]. fold s in E.
  unfold diff_route_with_head, cache_head. rewrite E.
  assert (Hno : forall z, ~ exists r', snd (diff_route diff z r html) = Some (EvHeadChanged r')).
  { intros z [r' H]. unfold diff_route in H. destruct (hm_get (html_cache z) r) as [o|]; [|done].
    destruct (String.eqb o html); [done|]. by destruct (diff o html) as [[|p ps]|]. }
  destruct (last_head r (rev hist)) as [old|].
  - destruct (String.eqb_spec old inj) as [->|Hne]; cbn [negb].
    + split; [intros H; by apply Hno in H|done].
    + split; [done|]. intros _. by exists r.
  - destruct (String.eqb_spec inj "") as [->|Hne]; cbn [negb].
    + split; [intros H; by apply Hno in H|done].
    + split; [done|]. intros _. by exists r.
Qed.
Print Assumptions head_change_reported_exactly.

(** The route named in the event is the one asked about. *)
Theorem events_name_their_route : forall diff s r html inj e,
  snd (diff_route_with_head diff s r html inj) = Some e ->
  match e with EvReload => True | EvPatches r' _ | EvHeadChanged r' => r' = r end.
Proof.
  intros diff s r html inj e. unfold diff_route_with_head, cache_head.
  match goal with |- context [if ?c then _ else _] => destruct c end; [by intros [= <-]|].
  unfold diff_route. cbn [html_cache]. destruct (hm_get (html_cache s) r) as [o|]; [|by intros [= <-]].
  destruct (String.eqb o html); [done|].
  by destruct (diff o html) as [[|p ps]|]; cbn [snd]; [|intros [= <-]..].
Qed.
Print Assumptions events_name_their_route.

Example head_change_example :
  let s := run (fun _ _ => Some []) ex_hist in
  snd (diff_route_with_head (fun _ _ => Some []) s "/a" "9" "h2") = Some (EvHeadChanged "/a") /\
  snd (diff_route_with_head (fun _ _ => Some []) s "/a" "9" "h") = None /\
  snd (diff_route_with_head (fun _ _ => Some []) s "/b" "9" "") = Some EvReload.
Proof. vm_compute. auto. Qed.

(** ** C25 *)

(** The result is the input with [content] inserted at one place: right after
    the first greater-than sign that follows the first head start (in any
    letter case), or at the very beginning when there is no such place. *)
Theorem inject_adds_once : forall html content : string,
  exists pre post,
    html = pre ++ post /\
    inject_into_head html content = pre ++ content ++ post /\
    ((pre = "" /\ ~ exists u v w, to_ascii_lowercase html = u ++ "<head" ++ v ++ ">" ++ w) \/
     (exists before tag,
        pre = before ++ tag ++ ">" /\
        (exists w, to_ascii_lowercase tag = "<head" ++ w) /\
        ~ occurs ">" tag /\
        (forall u v, to_ascii_lowercase html = u ++ "<head" ++ v -> String.length before <= String.length u))).
Proof.
  intros html content. unfold inject_into_head.
  destruct (str_find "<head" (to_ascii_lowercase html)) as [k|] eqn:E1.
  - pose proof (find_lt "<head" _ _ ltac:(discriminate) E1) as Hk. rewrite lower_length in Hk.
    destruct (str_find_some _ _ _ E1) as [[v Hv] Hmin]. rewrite lower_drop in Hv.
    destruct (str_find ">" (str_drop k html)) as [e|] eqn:E2.
    + exists (str_take (k + e + 1) html), (str_drop (k + e + 1) html).
      split; [by rewrite take_drop|]. split; [done|]. right.
      exists (str_take k html), (str_take e (str_drop k html)).
      destruct (str_find_some _ _ _ E2) as [[w Hw] Hmin2].
      assert (Hocc : ~ occurs ">" (str_take e (str_drop k html))).
      { intros (u' & v' & Hu). apply (Hmin2 (String.length u')).
        - pose proof (find_lt ">" _ _ ltac:(discriminate) E2). 
          assert (String.length (str_take e (str_drop k html)) = e) as L by (apply take_length; lia).
          rewrite Hu, str_app_length in L. cbn in L. lia.
        - exists (v' ++ str_drop e (str_drop k html)).
          rewrite <- (take_drop e (str_drop k html)) at 1. rewrite Hu, str_app_assoc, drop_app.
          by rewrite str_app_assoc. }
      split_and!; [| |done|].
      * rewrite <- Nat.add_assoc, take_add. f_equal. rewrite take_add, Hw. reflexivity.
      * assert (He : 5 <= e).
        { destruct (Nat.le_gt_cases 5 e) as [Hle|Hlt]; [exact Hle|exfalso].
          assert (str_drop e (to_ascii_lowercase (str_drop k html)) = to_ascii_lowercase (">" ++ w)) as Hd
            by (by rewrite lower_drop, Hw).
          rewrite Hv in Hd. do 5 (destruct e as [|e]; [cbn in Hd; discriminate Hd|]). lia. }
        exists (str_take (e - 5) v). rewrite <- lower_take, Hv.
        replace e with (S (S (S (S (S (e - 5)))))) at 1 by lia. reflexivity.
      * intros u w' Hu. destruct (Nat.le_gt_cases (String.length (str_take k html)) (String.length u)) as [Hle|Hlt]; [exact Hle|].
        exfalso. rewrite take_length in Hlt by lia. apply (Hmin _ Hlt). exists w'. rewrite Hu. apply drop_app.
    + exists "", html. split_and!; [done..|]. left. split; [done|].
      intros (u & x & w & Hu).
      assert (Hle : k <= String.length u).
      { destruct (Nat.le_gt_cases k (String.length u)) as [Hle|Hlt]; [exact Hle|].
        exfalso. apply (Hmin _ Hlt). eexists. rewrite Hu. apply drop_app. }
      apply str_find_none_occurs in E2. apply E2.
      assert (Hd : to_ascii_lowercase (str_drop k html) = (str_drop k u ++ "<head" ++ x) ++ ">" ++ w).
      { rewrite <- lower_drop, Hu. rewrite str_app_assoc.
        replace ("<head" ++ x ++ ">" ++ w) with (("<head" ++ x) ++ ">" ++ w) by done.
        generalize (("<head" ++ x) ++ ">" ++ w). clear -Hle. intros z.
        revert u Hle. induction k as [|k IH]; intros [|c u] Hle; cbn in *; try lia; [by destruct z|done|].
        apply IH. lia. }
      apply lower_gt_split in Hd as (v' & w' & -> & _). by exists v', w'.
  - exists "", html. split_and!; [done..|]. left. split; [done|].
    intros (u & v & w & Hu). apply (str_find_none _ _ E1 (String.length u)). eexists. rewrite Hu. apply drop_app.
Qed.
Print Assumptions inject_adds_once.

Example inject_example :
  inject_into_head "<!DOCTYPE html><HTML><Head lang=en><title></title></Head></HTML>" "<script></script>"
  = "<!DOCTYPE html><HTML><Head lang=en><script></script><title></title></Head></HTML>" /\
  inject_into_head "<p>x</p>" "S" = "S<p>x</p>".
Proof. vm_compute. auto. Qed.

(** Finding: the place found need not be the head element; any tag whose name
    starts with the letters of head is taken. *)
Theorem inject_into_header_refuted : exists html content,
  ~ occurs "<head>" html /\ ~ occurs "<head " html /\
  inject_into_head html content = "<body><header><script></script></header></body>".
Proof.
  exists "<body><header></header></body>", "<script></script>".
  split_and!; [..|vm_compute; reflexivity]; apply str_find_none_occurs; vm_compute; reflexivity.
Qed.
Print Assumptions inject_into_header_refuted.

(** Injecting twice puts the second snippet in front of the first when there
    is a head. *)
Example inject_order_example :
  inject_into_head (inject_into_head "<head></head>" "1") "2" = "<head>21</head>".
Proof. vm_compute. reflexivity. Qed.
