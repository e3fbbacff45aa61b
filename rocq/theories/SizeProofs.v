(** How much text the patches carry (C69). *)
From stdpp Require Import list_numbers.
From Verif Require Import Base Arena ArenaProofs Dom Matching Chawathe HtmlDiff MatchProofs ScriptProofs
  TreeProofs DtreeProofs ConvProofs BuildProofs AssembleProofs DiffTotal PayloadProofs CountProofs PropCount.
Local Open Scope list_scope.

(** ** Sizes *)

(** An attribute name as it is written, [prefix:local] without the colon. *)
Definition name_size (q : qname) : nat :=
  match q_prefix q with Some p => String.length p | None => 0 end + String.length (q_local q).
Definition attrs_size (l : attrs) : nat :=
  sum (map (fun kv => name_size (fst kv) + String.length (snd kv)) l).
Definition change_size (c : prop_change) : nat :=
  match pc_name c with PText => 0 | PAttr q => name_size q end
  + match pc_value c with Some v => String.length v | None => 0 end.
Fixpoint content_size (c : icontent) : nat :=
  match c with
  | ICElem t l cs => String.length t + attrs_size l + sum (map content_size cs)
  | ICText s | ICComment s => String.length s
  end.
(** All tags, attribute names, attribute values and texts in a patch. *)
Definition patch_size (p : patch) : nat :=
  match p with
  | PInsertElement _ t l cs _ => content_size (ICElem t l cs)
  | PInsertText _ s _ | PInsertComment _ s _ | PSetText _ s | POpaqueChanged _ s => String.length s
  | PSetAttribute _ q v => name_size q + String.length v
  | PRemoveAttribute _ q => name_size q
  | PUpdateProps _ ch => sum (map change_size ch)
  | PRemove _ | PMove _ _ _ => 0
  end.
Definition patches_size (ps : list patch) : nat := sum (map patch_size ps).

Definition kind_size (k : nkind) : nat :=
  match k with
  | NElem t l => String.length t + attrs_size l
  | NText s | NComment s => String.length s
  | NDocument => 0
  end.
Definition node_size (a : arena dnode) (i : nat) : nat :=
  match node_kind a i with Some k => kind_size k | None => 0 end.

Lemma sum_cons x l : sum (x :: l) = x + sum l.
Proof. done. Qed.
Lemma sum_plus l k : sum (l ++ k) = sum l + sum k.
Proof. induction l as [|x l IH]; [done|]. cbn [app]. rewrite !sum_cons. lia. Qed.
Lemma patches_size_app l k : patches_size (l ++ k) = patches_size l + patches_size k.
Proof. unfold patches_size. by rewrite map_app, sum_plus. Qed.

(** ** Serialization is at least as long *)

Lemma app_len s t : String.length (s ++ t)%string = String.length s + String.length t.
Proof. induction s as [|c s IH]; [done|]. cbn. by rewrite IH. Qed.
Lemma flat_len f : (forall c, 1 <= String.length (f c)) -> forall s, String.length s <= String.length (str_flat_map f s).
Proof.
  intros Hf. induction s as [|c s IH]; [done|]. cbn [str_flat_map String.length]. rewrite app_len.
  specialize (Hf c). lia.
Qed.
Lemma escape_text_len s : String.length s <= String.length (escape_text s).
Proof. apply flat_len. intros c. unfold esc_text_char. repeat case_match; cbn; lia. Qed.
Lemma escape_attr_len s : String.length s <= String.length (escape_attr s).
Proof. apply flat_len. intros c. unfold esc_attr_char. repeat case_match; cbn; lia. Qed.

Lemma concat_len : forall l, String.length (String.concat "" l) = sum (map String.length l).
Proof.
  induction l as [|s l IH]; [done|]. cbn [map]. rewrite sum_cons, <- IH. destruct l as [|s' l].
  - cbn. lia.
  - cbn [String.concat]. rewrite !app_len. cbn. lia.
Qed.
Lemma ser_attrs_len l : attrs_size l <= String.length (ser_attrs l).
Proof.
  unfold ser_attrs, attrs_size. rewrite concat_len. induction l as [|[q v] l IH]; [done|].
  cbn [map]. rewrite !sum_cons. enough (name_size q + String.length v <= String.length (ser_attr (q, v))) by (cbn [fst snd]; lia).
  cbn [ser_attr]. rewrite !app_len. pose proof (escape_attr_len v). unfold name_size.
  destruct (q_prefix q); rewrite ?app_len; cbn; lia.
Qed.

Ltac lens := repeat (progress (cbn [String.append String.length map] in *; rewrite ?app_len)).

(** Void elements have no children. *)
Definition voids_empty (a : arena dnode) (b : nat) : Prop :=
  forall i t l, inside a b i -> node_kind a i = Some (NElem t l) -> is_void_element t = true -> children a i = [].

Section Ser.
  Variable a : arena dnode.
  Variable nb : nat.
  Hypothesis html_nodes : forall i, inside a nb i -> exists k, node_kind a i = Some k /\ k <> NDocument.
  Hypothesis leaves : forall i s, node_kind a i = Some (NText s) \/ node_kind a i = Some (NComment s) -> children a i = [].
  Hypothesis voids : voids_empty a nb.

  Lemma ser_len : forall f f' raw i l s, inside a nb i -> desc_f f a i = Some l -> ser_f f' a raw i = Some s ->
    sum (map (node_size a) l) <= String.length s.
  Proof using html_nodes leaves voids.
    induction f as [|f IH]; intros f' raw i l s Hi E Es; [done|]. destruct f' as [|f']; [done|]. cbn [desc_f ser_f] in E, Es.
    destruct (html_nodes i Hi) as (k & Ek & Nk). rewrite Ek in Es.
    assert (children a i = [] -> l = [i]) as Hleaf. { intros Ec. rewrite Ec in E. by injection E as <-. }
    destruct k as [|t ats|u|u]; [done| | |].
    - destruct (is_void_element t) eqn:Ev.
      { rewrite (Hleaf (voids i t ats Hi Ek Ev)). injection Es as <-. cbn [map]. rewrite sum_cons. unfold node_size. rewrite Ek.
        lens. pose proof (ser_attrs_len ats). cbn. lia. }
      assert (forall cs l' s', (forall c, c ∈ cs -> inside a nb c) ->
        (fix go (l : list nat) : option (list nat) :=
          match l with
          | [] => Some []
          | c :: l' => match desc_f f a c, go l' with
                       | Some x, Some y => Some (x ++ y)
                       | _, _ => None
                       end
          end) cs = Some l' ->
        (fix go (l : list nat) : option string :=
                 match l with
                 | [] => Some ""%string
                 | c :: l' =>
                     match ser_f f' a (is_raw_text_element t) c, go l' with
                     | Some x, Some y => Some (x ++ y)%string
                     | _, _ => None
                     end
                 end) cs = Some s' -> sum (map (node_size a) l') <= String.length s') as HG.
      { induction cs as [|c cs IHc]; intros l' s' Hc E1 E2; [injection E1 as <-; injection E2 as <-; done|].
        destruct (desc_f f a c) as [u|] eqn:Eu; [|done]. destruct (_ cs) as [w|] eqn:Ew in E1; [|done]. injection E1 as <-.
        destruct (ser_f f' a _ c) as [u'|] eqn:Eu'; [|done]. destruct (_ cs) as [w'|] eqn:Ew' in E2; [|done]. injection E2 as <-.
        rewrite map_app, sum_plus, app_len.
        pose proof (IH f' _ c u u' (Hc c ltac:(left)) Eu Eu').
        pose proof (IHc w w' (fun c' Hc' => Hc c' (elem_of_list_further _ _ _ Hc')) Ew Ew'). lia. }
      destruct (_ (children a i)) as [u|] eqn:Eu in E; [|done]. injection E as <-.
      destruct (_ (children a i)) as [w|] eqn:Ew in Es; [|done]. injection Es as <-.
      cbn [map]. rewrite sum_cons. unfold node_size at 1. rewrite Ek.
      assert (sum (map (node_size a) u) <= String.length w) as HS.
      { eapply HG; [|exact Eu|exact Ew]. intros c Hc. by eapply inside_child. }
      lens. pose proof (ser_attrs_len ats). cbn [kind_size]. lia.
    - rewrite (Hleaf (leaves i u ltac:(by left))). injection Es as <-. cbn [map]. rewrite sum_cons. unfold node_size. rewrite Ek. cbn.
      pose proof (escape_text_len u). destruct raw; lia.
    - rewrite (Hleaf (leaves i u ltac:(by right))). injection Es as <-. cbn [map]. rewrite sum_cons. unfold node_size. rewrite Ek.
      lens. cbn. lia.
  Qed.

  Lemma insert_content_len : forall f f' raw i x s, inside a nb i -> insert_content f a i = Some x -> ser_f f' a raw i = Some s ->
    sum (map content_size x) <= String.length s.
  Proof using html_nodes leaves voids.
    induction f as [|f IH]; intros f' raw i x s Hi E Es; [done|]. destruct f' as [|f']; [done|]. cbn [insert_content ser_f] in E, Es.
    destruct (html_nodes i Hi) as (k & Ek & Nk). rewrite Ek in E, Es.
    destruct k as [|t ats|u|u]; [done| | |].
    - assert (forall cs l' s', (forall c, c ∈ cs -> inside a nb c) ->
        (fix go (cs : list nat) : option (list icontent) :=
                 match cs with
                 | [] => Some []
                 | c :: cs' => match insert_content f a c, go cs' with
                               | Some x, Some y => Some (x ++ y)
                               | _, _ => None
                               end
                 end) cs = Some l' ->
        (fix go (l : list nat) : option string :=
                 match l with
                 | [] => Some ""%string
                 | c :: l' =>
                     match ser_f f' a (is_raw_text_element t) c, go l' with
                     | Some x, Some y => Some (x ++ y)%string
                     | _, _ => None
                     end
                 end) cs = Some s' -> sum (map content_size l') <= String.length s') as HG.
      { induction cs as [|c cs IHc]; intros l' s' Hc E1 E2; [injection E1 as <-; injection E2 as <-; done|].
        destruct (insert_content f a c) as [u|] eqn:Eu; [|done]. destruct (_ cs) as [w|] eqn:Ew in E1; [|done]. injection E1 as <-.
        destruct (ser_f f' a _ c) as [u'|] eqn:Eu'; [|done]. destruct (_ cs) as [w'|] eqn:Ew' in E2; [|done]. injection E2 as <-.
        rewrite map_app, sum_plus, app_len.
        pose proof (IH f' _ c u u' (Hc c ltac:(left)) Eu Eu').
        pose proof (IHc w w' (fun c' Hc' => Hc c' (elem_of_list_further _ _ _ Hc')) Ew Ew'). lia. }
      destruct (is_void_element t) eqn:Ev.
      { rewrite (voids i t ats Hi Ek Ev) in E. injection E as <-. injection Es as <-. cbn [map content_size]. rewrite sum_cons.
        lens. pose proof (ser_attrs_len ats). cbn. lia. }
      destruct (_ (children a i)) as [u|] eqn:Eu in E; [|done]. injection E as <-.
      destruct (_ (children a i)) as [w|] eqn:Ew in Es; [|done]. injection Es as <-.
      cbn [map content_size]. rewrite sum_cons.
      assert (sum (map content_size u) <= String.length w) as HS.
      { eapply HG; [|exact Eu|exact Ew]. intros c Hc. by eapply inside_child. }
      lens. pose proof (ser_attrs_len ats). change (sum []) with 0. lia.
    - injection E as <-. injection Es as <-. cbn [map content_size]. rewrite sum_cons.
      pose proof (escape_text_len u). change (sum []) with 0. destruct raw; lia.
    - injection E as <-. injection Es as <-. cbn [map content_size]. rewrite sum_cons.
      lens. cbn. lia.
  Qed.

  Lemma insert_all_len f' : forall l pos ps s, (forall c, c ∈ l -> inside a nb c) -> insert_all a l pos = Val ps ->
    ser_list f' a l = Some s -> patches_size ps <= String.length s.
  Proof using html_nodes leaves voids.
    induction l as [|c l IH]; intros pos ps s Hl E Es; cbn [insert_all ser_list] in E, Es.
    { injection E as <-. unfold patches_size. cbn. lia. }
    bnd E p Ep. bnd E qs Eqs. injection E as <-.
    destruct (ser_f f' a false c) as [u|] eqn:Eu; [|done]. destruct (ser_list f' a l) as [w|] eqn:Ew; [|done]. injection Es as <-.
    pose proof (IH (S pos) qs w (fun c' Hc' => Hl c' (elem_of_list_further _ _ _ Hc')) Eqs eq_refl) as HI.
    assert (inside a nb c) as Hc by (apply Hl; left).
    unfold patches_size in *. cbn [map]. rewrite sum_cons, app_len. enough (patch_size p <= String.length u) by lia.
    unfold create_insert_patch in Ep. destruct (html_nodes c Hc) as (k & Ek & Nk). rewrite Ek in Ep.
    destruct k as [|t at_|v|v]; [done| | |].
    - destruct (insert_content _ a c) as [x|] eqn:Ex; [|done]. cbn in Ep.
      pose proof (insert_content_len _ f' false c x u Hc Ex Eu) as HL.
      destruct x as [|[t' at'' cs|?|?] [|? ?]]; try done. injection Ep as <-.
      destruct (insert_content_piece a nb html_nodes _ _ _ Hc Ex) as (y & Ey & Hy). injection Ey as <-.
      inversion Hy as [|? ? E1|? t2 l2 js cs2 E1 Hs HF E2]; subst. rewrite Ek in E1. injection E1 as -> ->.
      cbn [patch_size]. cbn [map] in HL. rewrite sum_cons in HL. change (sum []) with 0 in HL. lia.
    - injection Ep as <-. destruct f' as [|f']; [done|]. cbn [ser_f] in Eu. rewrite Ek in Eu. injection Eu as <-. apply escape_text_len.
    - injection Ep as <-. destruct f' as [|f']; [done|]. cbn [ser_f] in Eu. rewrite Ek in Eu. injection Eu as <-.
      cbn [patch_size]. lens. lia.
  Qed.
End Ser.

(** ** Operations and patches *)

Lemma changes_len ch (l : attrs) :
  Forall2 (fun c kv => pc_name c = PAttr (fst kv) /\ (pc_value c = None \/ pc_value c = Some (snd kv))) ch l ->
  sum (map change_size ch) <= attrs_size l.
Proof.
  induction 1 as [|c [q v] ch l [En Ev] _ IH]; [done|]. unfold attrs_size in *. cbn [map]. rewrite !sum_cons.
  unfold change_size at 1. rewrite En. cbn [fst snd] in *. destruct Ev as [-> | ->]; lia.
Qed.

Section Ops.
  Context {H : Type}.
  Variable tb : dtree H hkind attrs string.

  Definition t_size (b : nat) : nat :=
    match t_kind tb b with
    | KElem t _ => String.length t + attrs_size (t_props tb b)
    | _ => match t_text tb b with Some s => String.length s | None => 0 end
    end.
  Definition op_size (op : hop) : nat :=
    match op with
    | UpdateProperties _ _ ch => sum (map change_size ch)
    | Insert b _ _ _ => t_size b
    | SetText _ _ s => String.length s
    | Delete _ | Move _ _ _ _ => 0
    end.

  Definition known (s : cstate) (c : nat) : Prop := slot_get (cs_b2s s) c <> None.
  (** The children of an inserted node are not part of the insertion: each comes from
      the old page or is inserted by itself. *)
  Definition op_alone (ins : list nat) (s : cstate) (op : hop) : Prop :=
    match op with
    | Insert b _ _ k => k = t_kind tb b /\ forall c, c ∈ t_children tb b -> known s c \/ c ∈ ins
    | _ => True
    end.

  Lemma known_set s b n c sh o : known s c -> known (mkCS sh (slot_set (cs_b2s s) b n) o) c.
  Proof. unfold known. cbn [cs_b2s]. rewrite slot_get_set. by destruct (Nat.eqb b c). Qed.

  Lemma reparent_size : forall l par pos s s', reparent_loop l par pos s = Val s' ->
    patches_size (cs_out s') = patches_size (cs_out s) /\ cs_b2s s' = cs_b2s s.
  Proof.
    induction l as [|[i c] l IH]; intros par pos s s' E; [by injection E as <-|]. cbn [reparent_loop] in E.
    bnd E from E1. bnd E sh1 E2. bnd E a2 E3. bnd E to E4. apply IH in E as [-> ->]. cbn [emit cs_out cs_b2s].
    rewrite patches_size_app. split; [|done]. unfold patches_size at 2. cbn. lia.
  Qed.

  Lemma convert_op_size ins s op s' : convert_op tb ins s op = Val s' -> op_alone ins s op ->
    patches_size (cs_out s') = patches_size (cs_out s) + op_size op /\ (forall c, known s c -> known s' c).
  Proof.
    intros E Ho. destruct op as [x y ch|b pb pos kind|x|x b pb pos|x y t]; cbn [convert_op] in E.
    - bnd E p E1. injection E as <-. cbn [emit cs_out]. rewrite patches_size_app. unfold patches_size at 2. cbn. split; [lia|done].
    - destruct Ho as [-> Hc]. bnd E sp E1. destruct (new_node _ _) as [a1 n]. bnd E shs E2. destruct shs as [sh1 slot].
      bnd E at_ E3. bnd E p Ep. injection E as <-. cbn [cs_out].
      split; [|intros c; apply known_set]. rewrite patches_size_app. f_equal. unfold patches_size. cbn [map].
      rewrite sum_cons. change (sum []) with 0. rewrite Nat.add_0_r. unfold op_size, t_size.
      destruct (t_kind tb b) as [tag ns| |] eqn:Ek.
      + rewrite (extract_children_skip tb) in Ep.
        * cbn [obind] in Ep. injection Ep as <-. cbn. lia.
        * intros c Hcc. destruct (Hc c Hcc) as [Hk|Hi].
          -- rewrite slot_get_set. destruct (Nat.eqb b c); [done|]. unfold known in Hk. by destruct (slot_get _ c).
          -- destruct (slot_get _ c); [done|]. by apply mem_true.
      + injection Ep as <-. cbn. by destruct (t_text tb b).
      + injection Ep as <-. cbn. by destruct (t_text tb b).
    - bnd E p E1. bnd E p' E2. injection E as <-. cbn [emit cs_out]. rewrite patches_size_app. unfold patches_size at 2. cbn. split; [lia|done].
    - bnd E sp E1. bnd E anc E2. bnd E s1 E3. bnd E p E4. bnd E shs E5. destruct shs as [sh2 slot]. bnd E to E6.
      injection E as <-. cbn [cs_out]. rewrite patches_size_app. unfold patches_size at 2. cbn [map patch_size op_size].
      change (sum [0]) with 0.
      assert (patches_size (cs_out s1) = patches_size (cs_out s) /\ cs_b2s s1 = cs_b2s s) as [-> Eb].
      { destruct anc; [|by injection E3 as <-]. bnd E3 par E7. by eapply reparent_size. }
      split; [lia|]. intros c Hc. apply known_set. unfold known. by rewrite Eb.
    - bnd E p E1. injection E as <-. cbn [emit cs_out]. rewrite patches_size_app. unfold patches_size at 2. cbn. split; [lia|done].
  Qed.

  Lemma convert_loop_size ins : forall ops s s', convert_loop tb ins s ops = Val s' -> Forall (op_alone ins s) ops ->
    patches_size (cs_out s') = patches_size (cs_out s) + sum (map op_size ops).
  Proof.
    induction ops as [|op ops IH]; intros s s' E Ho; [injection E as <-; cbn; lia|]. cbn [convert_loop] in E.
    bnd E s1 E1. apply Forall_cons in Ho as [Ho HF]. destruct (convert_op_size _ _ _ _ E1 Ho) as [Es Hk].
    rewrite (IH s1 s' E), Es.
    - cbn [map]. rewrite sum_cons. lia.
    - eapply Forall_impl; [exact HF|]. intros [ | | | | ]; cbn; try done. intros [-> Hc]. split; [done|].
      intros c Hcc. destruct (Hc c Hcc); auto.
  Qed.
End Ops.

(** ** The edit script *)

Lemma matched_sides {H} (heqb : H -> H -> bool) (ta tb : dtree H hkind attrs string) m :
  html_matching heqb ta tb = Val m ->
  (forall y, contains_b m y = true <-> y ∈ map snd (m_pairs m)) /\
  exists l k, map snd (m_pairs m) = l ++ k /\ NoDup l /\ (k = [] \/ k = [t_root tb]).
Proof.
  unfold html_matching. intros E. bnd E m0 E0. pose proof (compute_matching_bijection _ _ _ _ _ _ _ E0) as B0.
  assert (forall y, contains_b m0 y = true <-> y ∈ map snd (m_pairs m0)) as HC.
  { intros y. unfold contains_b. rewrite elem_of_list_fmap. split.
    - destruct (get_a m0 y) as [x|] eqn:Ex; [|done]. intros _. exists (x, y). split; [done|]. by apply (bij_bwd _ B0).
    - intros ([x y'] & -> & Hp). apply (bij_bwd _ B0) in Hp. cbn [snd]. by rewrite Hp. }
  destruct (hkind_eqb _ _ && _) eqn:Ec; injection E as <-.
  - cbn [m_add m_pairs]. rewrite map_app. cbn [map snd]. split.
    + intros y. rewrite elem_of_app, elem_of_list_singleton, <- HC. unfold contains_b.
      change (mkM _ _ _) with (m_add m0 (t_root ta) (t_root tb)). rewrite get_a_add.
      destruct (Nat.eqb_spec (t_root tb) y) as [Hy|Hy]; [subst y; tauto|]. split; [by left|]. intros [?|?]; [done|congruence].
    + eexists _, _. split; [done|]. split; [apply B0|by right].
  - split; [done|]. eexists _, []. split; [by rewrite app_nil_r|]. split; [apply B0|by left].
Qed.

Lemma b2s_known pairs x y : (x, y) ∈ pairs -> slot_get (b2s_of pairs) y <> None.
Proof.
  unfold b2s_of.
  enough (forall sl, (exists x, (x, y) ∈ pairs) \/ slot_get sl y <> None ->
    slot_get (fold_left (fun s p => slot_set s (snd p) (fst p)) pairs sl) y <> None) as HH.
  { intros Hp. apply HH. left. by exists x. }
  clear x. induction pairs as [|[u v] pairs IH]; intros sl [[x Hp]|Hs]; cbn [fold_left fst snd].
  - by apply elem_of_nil in Hp.
  - done.
  - apply elem_of_cons in Hp as [[= -> ->]|Hp]; apply IH; [right|left; by exists x]. rewrite slot_get_set, Nat.eqb_refl. done.
  - apply IH. right. rewrite slot_get_set. by destruct (Nat.eqb v y).
Qed.

Lemma sum_map_le {A} (f g : A -> nat) l : (forall x, x ∈ l -> f x <= g x) -> sum (map f l) <= sum (map g l).
Proof.
  intros HL. induction l as [|x l IH]; [done|]. cbn [map]. rewrite !sum_cons.
  pose proof (HL x ltac:(left)). pose proof (IH (fun y Hy => HL y (elem_of_list_further _ _ _ Hy))). lia.
Qed.
Lemma sum_flat_map {A B} (f : A -> list B) (g : B -> nat) l : sum (map g (flat_map f l)) = sum (map (fun x => sum (map g (f x))) l).
Proof.
  induction l as [|x l IH]; [done|]. cbn [flat_map map]. rewrite map_app, sum_plus, IH. done.
Qed.
Lemma sum_zero {A} (f : A -> nat) l : (forall x, x ∈ l -> f x = 0) -> sum (map f l) = 0.
Proof.
  intros HL. induction l as [|x l IH]; [done|]. cbn [map]. rewrite !sum_cons, (HL x ltac:(left)).
  apply IH. intros y Hy. apply HL. by right.
Qed.
Lemma sum_filter {A} (f : A -> nat) (g : A -> bool) l :
  sum (map (fun x => if g x then f x else 0) l) = sum (map f (List.filter g l)).
Proof.
  induction l as [|x l IH]; [done|]. cbn [map List.filter]. rewrite sum_cons. destruct (g x); cbn [map]; rewrite ?sum_cons; lia.
Qed.

Section Script.
  Context {H : Type}.
  Variables (heqb : H -> H -> bool) (hcomb : hkind -> option string -> list H -> H) (h0 : H).
  Variable new : document.
  Notation a := (doc_arena new).
  Variable nb : nat.
  Hypothesis PN : proper new.
  Hypothesis html_nodes : forall i, inside a nb i -> exists k, node_kind a i = Some k /\ k <> NDocument.
  Variables (ta tb : dtree H hkind attrs string) (m : matching).
  Hypothesis Etb : mk_dtree hcomb h0 tdata_of a nb = Val tb.
  Hypothesis Em : html_matching heqb ta tb = Val m.
  (** No element is marked opaque. *)
  Hypothesis unmarked : forall i, inside a nb i -> t_opaque tb i = false.

  Lemma tb_presents : exists rb, presents tb rb.
  Proof using PN Etb html_nodes.
    destruct (tree_exists a nb (pp_wf _ PN)) as (r & Hr & Ht).
    destruct (html_nodes nb ltac:(constructor)) as (k & Ek & _).
    assert (nb < length a) as HL. { unfold node_kind in Ek. destruct (data a nb) eqn:Ed; [|done]. by eapply data_lt. }
    destruct (mk_dtree_presents hcomb h0 tdata_of a r (pp_wf _ PN)) as (t & Et & P); [by rewrite Hr|done|].
    rewrite Hr, Etb in Et. injection Et as <-. by exists r.
  Qed.

  Lemma inside_in i : inside a nb i -> i ∈ t_iter tb.
  Proof using PN Etb html_nodes.
    destruct tb_presents as (rb & PB). destruct (tb_fields hcomb h0 new nb tb Etb) as (Er & _ & _ & _ & Ec & _).
    induction 1 as [|i c Hi IH Hc].
    - rewrite (pr_iter _ _ PB), <- Er, (pr_root _ _ PB). destruct rb. cbn. left.
    - rewrite <- Ec in Hc. by apply (pr_child tb rb PB i c IH Hc).
  Qed.

  Lemma tb_unmarked : opaque_descendants tb = [].
  Proof using PN Etb html_nodes unmarked.
    destruct tb_presents as (rb & PB). apply (opaque_none tb rb PB). intros x Hx Ho.
    apply (tb_iter hcomb h0 new nb tb Etb) in Hx. by rewrite (unmarked x Hx) in Ho.
  Qed.

  Lemma t_size_node i : inside a nb i -> t_size tb i = node_size a i.
  Proof using Etb html_nodes.
    intros Hi. destruct (html_nodes i Hi) as (k & Ek & Nk). unfold t_size, node_size. rewrite Ek.
    destruct (tb_fields hcomb h0 new nb tb Etb) as (_ & -> & -> & -> & _). unfold dkind, dprops, dtext, node_kind in *.
    destruct (data a i) as [[k' n]|]; [|done]. cbn in Ek. injection Ek as ->. by destruct k.
  Qed.

  (** What an edit in place may carry. *)
  Definition edit_size (i : nat) : nat :=
    match node_kind a i with Some (NElem _ l) => attrs_size l | _ => node_size a i end.

  Lemma phase1_size p : snd p ∈ map snd (m_pairs m) ->
    sum (map (op_size tb) (phase1 String.eqb props_empty props_diff any_different (@length prop_change) (@length attr) ta tb
      (opaque_descendants ta) (opaque_descendants tb) p)) <= edit_size (snd p).
  Proof using PN Etb html_nodes Em.
    destruct p as [x y]. cbn [snd]. intros Hy. apply elem_of_list_fmap in Hy as ([x' y'] & -> & Hp).
    apply (pairs_inside heqb hcomb h0 new nb tb Etb ta m Em) in Hp. cbn [snd].
    unfold phase1. destruct (_ || _); [cbn; lia|].
    destruct (html_nodes y' Hp) as (k & Ek & Nk). unfold edit_size, node_size. rewrite Ek.
    destruct (tb_fields hcomb h0 new nb tb Etb) as (_ & _ & -> & -> & _).
    assert (dprops tdata_of a y' = td_props (tdata_of (mkD k NsHtml)) /\ dtext tdata_of a y' = td_text (tdata_of (mkD k NsHtml))) as [-> ->].
    { unfold dprops, dtext, node_kind in *. destruct (data a y') as [[k' n]|]; [|done]. cbn in Ek. injection Ek as ->. by destruct k. }
    destruct k as [|t l|s|s]; [done| | |]; cbn [tdata_of td_props td_text d_kind].
    - assert (sum (map change_size (props_diff (t_props ta x) l)) <= attrs_size l) as HS.
      { apply changes_len. apply props_diff_loop_drawn. }
      destruct (otext_eqb _ _ _), (_ && _); cbn [app map]; try (cbn; lia).
      all: destruct (_ || _); [|cbn; lia]; cbn [map op_size]; rewrite sum_cons; change (sum []) with 0; lia.
    - rewrite map_app, sum_plus. 
      match goal with |- _ + ?z <= _ => assert (z = 0) as -> end.
      { destruct (_ && _); [done|]. cbv zeta. destruct (_ || _); done. }
      destruct (otext_eqb _ _ _); cbn; lia.
    - rewrite map_app, sum_plus. 
      match goal with |- _ + ?z <= _ => assert (z = 0) as -> end.
      { destruct (_ && _); [done|]. cbv zeta. destruct (_ || _); done. }
      destruct (otext_eqb _ _ _); cbn; lia.
  Qed.

  Lemma script_size : sum (map (op_size tb) (html_edit_script ta tb m)) <=
    sum (map (node_size a) (t_iter tb)) + edit_size nb.
  Proof using PN Etb html_nodes Em.
    destruct tb_presents as (rb & PB). destruct (matched_sides heqb ta tb m Em) as (HC & l & k & Elk & NDl & Hk).
    unfold html_edit_script. rewrite script_eq, !map_app, !sum_plus, !sum_flat_map.
    rewrite (sum_zero _ (t_post ta)), (sum_zero (fun x => sum (map (op_size tb) (phase4 _ _ _ _ _ x)))).
    2:{ intros [x y] _. apply sum_zero. intros op Hop. by apply in_ph4 in Hop as (? & ? & ? & ? & _ & _ & _ & _ & _ & -> & _). }
    2:{ intros x _. apply sum_zero. intros op Hop. by apply in_ph5 in Hop as (_ & _ & ->). }
    assert (sum (map (fun x => sum (map (op_size tb) (phase1 String.eqb props_empty props_diff any_different (@length prop_change) (@length attr) ta tb
      (opaque_descendants ta) (opaque_descendants tb) x))) (m_pairs m)) <= sum (map (node_size a) l) + edit_size nb) as H1.
    { etransitivity; [apply (sum_map_le _ (fun p => edit_size (snd p)))|].
      - intros p Hp. apply phase1_size. apply elem_of_list_fmap. by exists p.
      - rewrite <- (map_map snd edit_size), Elk, map_app, sum_plus.
        assert (sum (map edit_size l) <= sum (map (node_size a) l)) as HL.
        { apply sum_map_le. intros i _. unfold edit_size, node_size. destruct (node_kind a i) as [[]|]; cbn; lia. }
        assert (sum (map edit_size k) <= edit_size nb) as HK.
        { destruct (tb_fields hcomb h0 new nb tb Etb) as (Er & _). destruct Hk as [-> | ->]; cbn [map]; rewrite ?sum_cons, ?Er; cbn; lia. }
        lia. }
    assert (sum (map (fun x => sum (map (op_size tb) (phase2 tb m (opaque_descendants tb) x))) (t_iter tb)) <=
      sum (map (node_size a) (List.filter (fun y => negb (contains_b m y)) (t_iter tb)))) as H2.
    { rewrite <- sum_filter. apply sum_map_le. intros y Hy. apply (tb_iter hcomb h0 new nb tb Etb) in Hy.
      unfold phase2. destruct (contains_b m y); [done|]. cbn [negb].
      destruct (t_parent tb y); [|cbn; lia]. destruct (mem _ _); [cbn; lia|]. cbn [map op_size]. rewrite sum_cons, (t_size_node y Hy).
      cbn. lia. }
    assert (sum (map (node_size a) (l ++ List.filter (fun y => negb (contains_b m y)) (t_iter tb))) <= sum (map (node_size a) (t_iter tb))) as H3.
    { apply sum_submseteq. apply (fmap_submseteq (node_size a)). apply NoDup_submseteq.
      - apply NoDup_app. split; [done|]. split.
        + intros y Hy Hf. apply elem_of_list_In, filter_In in Hf as [_ Hf]. apply negb_true_iff in Hf.
          assert (contains_b m y = true) as Hc; [|congruence]. apply HC. rewrite Elk. apply elem_of_app. by left.
        + apply NoDup_ListNoDup, List.NoDup_filter, NoDup_ListNoDup. rewrite (pr_iter _ _ PB). apply PB.
      - intros y Hy. apply elem_of_app in Hy as [Hy|Hy].
        + assert (y ∈ map snd (m_pairs m)) as Hm by (rewrite Elk; apply elem_of_app; by left).
          apply elem_of_list_fmap in Hm as ([x y'] & -> & Hp). apply inside_in.
          by apply (pairs_inside heqb hcomb h0 new nb tb Etb ta m Em) in Hp.
        + apply elem_of_list_In, filter_In in Hy as [Hy _]. by apply elem_of_list_In. }
    rewrite map_app, sum_plus in H3.
    etransitivity; [apply Nat.add_le_mono; [exact H1|apply Nat.add_le_mono; [exact H2|reflexivity]]|]. lia.
  Qed.

  Lemma script_alone sh : Forall (op_alone tb (insert_nodes (html_edit_script ta tb m)) (mkCS sh (b2s_of (m_pairs m)) []))
    (html_edit_script ta tb m).
  Proof using PN Etb html_nodes Em unmarked.
    destruct tb_presents as (rb & PB). destruct (matched_sides heqb ta tb m Em) as (HC & _).
    apply Forall_forall. intros op Hop. destruct op as [| b pb pos kind | | |]; try done.
    assert (forall b pb pos k, Insert b pb pos k ∈ html_edit_script ta tb m -> b ∈ t_iter tb /\ k = t_kind tb b) as HI.
    { clear. intros b pb pos k Hop. apply in_script in Hop as [(z & _ & Hz)|[(z & Hi & Hz)|[(z & _ & Hz)|(z & _ & Hz)]]].
      - by apply in_ph1 in Hz as (? & ? & _ & _ & _ & [[? ?]|[? ?]]).
      - apply in_ph2 in Hz as (_ & _ & p & _ & [= -> _ _ ->]). done.
      - by apply in_ph4 in Hz as (? & ? & ? & ? & _ & _ & _ & _ & _ & ? & _).
      - by apply in_ph5 in Hz as (_ & _ & ?). }
    destruct (HI _ _ _ _ Hop) as [Hb ->]. cbn. split; [done|]. intros c Hc.
    destruct (pr_child tb rb PB b c Hb Hc) as [Hci Hp]. destruct (contains_b m c) eqn:Ec.
    - left. unfold known. cbn [cs_b2s]. apply HC, elem_of_list_fmap in Ec as ([x y] & -> & Hxy). cbn [snd].
      by apply (b2s_known (m_pairs m) x y).
    - right. unfold insert_nodes. apply elem_of_list_In, in_flat_map. exists (Insert c b (t_position tb c) (t_kind tb c)).
      split; [|by left]. apply elem_of_list_In. unfold html_edit_script. rewrite script_eq. apply elem_of_app. right. apply elem_of_app. left.
      apply elem_of_list_In, in_flat_map. exists c. split; [by apply elem_of_list_In|]. unfold phase2. rewrite Ec, Hp.
      rewrite tb_unmarked. cbn. by left.
  Qed.
End Script.

Theorem diff_size {H} (heqb : H -> H -> bool) hcomb h0 old new nb t l ps s :
  proper new -> body new = Some nb -> node_kind (doc_arena new) nb = Some (NElem t l) ->
  (forall i t' l', inside (doc_arena new) nb i -> node_kind (doc_arena new) i = Some (NElem t' l') -> is_opaque_props l' = false) ->
  voids_empty (doc_arena new) nb -> serialize_node (doc_arena new) nb = Some s ->
  diff heqb hcomb h0 old new = Val ps ->
  patches_size ps <= String.length s + attrs_size l.
Proof.
  intros PN Eb Ek HO HV Es E. pose proof (proper_inside new nb PN Eb) as HN.
  unfold diff in E. rewrite Eb in E. destruct (body old) as [ob|].
  2:{ unfold serialize_node in Es. cbn [ser_f] in Es. unfold tree_fuel in Es. cbn [ser_f] in Es. rewrite Ek in Es.
      assert (t = "body"%string) as ->.
      { unfold body, body_in in Eb. apply find_some in Eb as [_ Eb]. unfold has_tag in Eb. rewrite Ek in Eb. by apply String.eqb_eq. }
      change (is_void_element "body") with false in Es. change (is_raw_text_element "body") with false in Es. cbv iota in Es.
      destruct (_ (children (doc_arena new) nb)) as [w|] eqn:Ew; [|done]. injection Es as <-.
      assert (ser_list (length (doc_arena new)) (doc_arena new) (children (doc_arena new) nb) = Some w) as Ew'.
      { rewrite <- Ew. clear. generalize (children (doc_arena new) nb) as l. induction l as [|c l IH]; [done|]. cbn [ser_list]. by rewrite IH. }
      pose proof (insert_all_len (doc_arena new) nb HN (pp_leaf _ PN) HV _ _ _ _ _ (fun c Hc => inside_child _ _ _ _ (inside_self _ _) Hc) E Ew').
      lens. lia. }
  unfold diff_bodies in E. bnd E tr Et. bnd E ta Eta. bnd E tb Etb. bnd E m Em. bnd E oc Eo. bnd E qs Ec.
  assert (forall i, inside (doc_arena new) nb i -> t_opaque tb i = false) as HU.
  { intros i Hi. destruct (tb_fields hcomb h0 new nb tb Etb) as (_ & _ & _ & _ & _ & ->). destruct (HN i Hi) as (k & Ek' & _).
    unfold dprops. pose proof (HO i) as HO'. unfold node_kind in Ek', HO'. destruct (data (doc_arena new) i) as [[k' n]|]; [|done].
    injection Ek' as ->. destruct k; try done. cbn. by eapply HO'. }
  assert (oc = []) as ->.
  { assert (forall x y, (x, y) ∈ m_pairs m -> t_opaque tb y = false) as HP.
    { intros x y Hp. apply HU. by apply (pairs_inside heqb hcomb h0 new nb tb Etb ta m Em) in Hp. }
    clear E. revert oc Eo HP. clear. induction (m_pairs m) as [|[x y] p IH]; intros oc Eo HP; [by injection Eo as <-|].
    cbn [opaque_contents] in Eo. rewrite (HP x y ltac:(left)) in Eo. cbn [negb] in Eo. apply IH; [done|].
    intros ? ? ?. eapply HP. by right. }
  injection E as <-. unfold convert_ops in Ec. bnd Ec sh Esh. bnd Ec st El. injection Ec as <-.
  rewrite (convert_loop_size tb _ _ _ _ El).
  2:{ by eapply script_alone. }
  cbn [cs_out]. change (patches_size []) with 0. cbn [Nat.add].
  pose proof (script_size heqb hcomb h0 new nb PN HN ta tb m Etb Em) as HS.
  assert (edit_size new nb = attrs_size l) as El'. { unfold edit_size. by rewrite Ek. }
  assert (sum (map (node_size (doc_arena new)) (t_iter tb)) <= String.length s) as HL; [|lia].
  clear - PN HN HV Etb Es. unfold mk_dtree in Etb. bnd Etb ds Ed. bnd Etb po Ep. injection Etb as <-. cbn [t_iter].
  destruct (descendants (doc_arena new) nb) as [ds'|] eqn:Ed'; [|done]. injection Ed as ->. unfold descendants in Ed'.
  eapply (ser_len (doc_arena new) nb HN (pp_leaf _ PN) HV); [constructor|exact Ed'|exact Es].
Qed.
