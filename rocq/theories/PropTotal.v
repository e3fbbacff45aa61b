(** Property theorem C31: [diff] returns a result on every pair of well-formed
    documents. *)
From stdpp Require Import list_numbers relations.
From Verif Require Import Base Arena Matching Chawathe Dom HtmlDiff
  ArenaProofs DomTree DiffTotal Instances InstanceProofs HashProofs PropMatch PropRoundtrip.
Local Open Scope string_scope.

(** ** C31 *)

(** For any hash functions (colliding or not) and any two documents whose arena
    is a forest in which texts and comments have no children and no document
    node is a child, [diff] returns a list of patches: no loop runs out, no
    [unwrap], [expect] or index fails, and no error is reported. Nothing is
    assumed about bodies, attributes, opaque elements or nested bodies. *)
Theorem diff_total : forall {H} (heqb : H -> H -> bool) hcomb h0 (old new : document),
  proper old -> proper new -> exists ps, diff heqb hcomb h0 old new = Val ps.
Proof. intros. by apply diff_total_all. Qed.
Print Assumptions diff_total.

(** A check of [proper] by computation, for examples. *)
Definition proper_at (d : document) (i : nat) : bool :=
  match node_kind (doc_arena d) i with
  | Some (NText _) | Some (NComment _) => match children (doc_arena d) i with [] => true | _ => false end
  | Some NDocument => match parent (doc_arena d) i with None => true | _ => false end
  | _ => true
  end.
Lemma proper_check d : wf (doc_arena d) ->
  forallb (proper_at d) (seq 0 (length (doc_arena d))) = true -> proper d.
Proof.
  intros W C. rewrite forallb_forall in C.
  assert (forall i k, node_kind (doc_arena d) i = Some k -> proper_at d i = true) as HC.
  { intros i k Hk. apply C. apply in_seq. unfold node_kind in Hk.
    destruct (data (doc_arena d) i) eqn:E; [|done]. apply data_lt in E. lia. }
  split; [done| |].
  - intros i s Hk. assert (proper_at d i = true) as Hp by (destruct Hk; by eapply HC).
    unfold proper_at in Hp. destruct Hk as [Hk|Hk]; rewrite Hk in Hp; by destruct (children (doc_arena d) i).
  - intros i p Hp Hk. specialize (HC i _ Hk). unfold proper_at in HC. by rewrite Hk, Hp in HC.
Qed.
Lemma proper_mk_doc h b :
  forallb (proper_at (mk_doc h b)) (seq 0 (length (doc_arena (mk_doc h b)))) = true -> proper (mk_doc h b).
Proof. apply proper_check. apply (mk_doc_ok h b). Qed.

(** Swapped nesting, changed opaque content, repeated attributes and a nested
    body; the hash of the second run gives every node the same value. *)
Definition total_old : list htree :=
  swap_old ++ [opaque_el [el "i" [tx "in"]]; el "body" [tx "x"];
               el_a "p" [ex_attr "k" "1"; ex_attr "k" "2"] [HComment "c"; tx ""]].
Definition total_new : list htree :=
  swap_new ++ [opaque_el [el "i" [tx "changed"]]; el_a "p" [ex_attr "k" "2"; ex_attr "k" "1"] [tx "y"];
               el "body" [el "body" [tx "x"]]].
Example diff_total_example :
  proper (mk_doc [] total_old) /\ proper (mk_doc [] total_new) /\
  (exists ps, pdiff (mk_doc [] total_old) (mk_doc [] total_new) = Val ps /\ length ps = 20) /\
  (exists ps, diff (fun _ _ => true) (fun _ _ _ => tt) tt (mk_doc [] total_old) (mk_doc [] total_new) = Val ps
     /\ 5 < length ps) /\
  (exists ps, pdiff (mkDoc [] 0 None) (mk_doc [] total_new) = Val ps /\ length ps = 4).
Proof.
  split; [apply proper_mk_doc; vm_compute; reflexivity|].
  split; [apply proper_mk_doc; vm_compute; reflexivity|].
  split; [eexists; split; [vm_compute; reflexivity|vm_compute; reflexivity]|].
  split; [eexists; split; [vm_compute; reflexivity|vm_compute; lia]|].
  eexists; split; [vm_compute; reflexivity|vm_compute; reflexivity].
Qed.
