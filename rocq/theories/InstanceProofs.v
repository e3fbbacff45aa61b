(** The example documents are well formed. *)
From Verif Require Import Base Arena Matching Dom HtmlDiff ArenaProofs ArenaOps TreeProofs DomTree Instances.

Lemma base_doc_wf :
  wf [mkNode (elem "html" [] NsHtml) None [1; 2];
      mkNode (elem "head" [] NsHtml) (Some 0) [];
      mkNode (elem "body" [] NsHtml) (Some 0) []].
Proof.
  split.
  - intros i p. split.
    + destruct i as [|[|[|i]]]; simpl; try (unfold parent; simpl; discriminate);
        intros [= <-]; unfold children; simpl; (left; fail) || (right; left; fail) || idtac.
    + destruct p as [|[|[|p]]]; unfold children; simpl; intros Hin; try (inversion Hin; fail).
      rewrite !elem_of_cons in Hin. destruct Hin as [->|[->|Hin]]; [done|done|inversion Hin].
  - intros [|[|[|p]]]; unfold children; simpl; try constructor.
    + rewrite elem_of_list_singleton. lia.
    + constructor; [intros Hin; inversion Hin|constructor].
  - intros [|[|[|i]]].
    + exists []. by constructor.
    + exists [0]. eapply chain_up; [done|]. by constructor.
    + exists [0]. eapply chain_up; [done|]. by constructor.
    + exists []. constructor. unfold parent. by rewrite lookup_ge_None_2 by (simpl; lia).
Qed.

(** [mk_doc h b] is a tree whose head holds [h] and whose body holds [b]. *)
Lemma mk_doc_ok h b :
  wf (doc_arena (mk_doc h b)) /\ doc_root (mk_doc h b) = 0 /\
  doc_doctype (mk_doc h b) = Some "html"%string /\
  children (doc_arena (mk_doc h b)) 0 = [1; 2] /\
  data (doc_arena (mk_doc h b)) 0 = Some (elem "html" [] NsHtml) /\
  data (doc_arena (mk_doc h b)) 1 = Some (elem "head" [] NsHtml) /\
  data (doc_arena (mk_doc h b)) 2 = Some (elem "body" [] NsHtml) /\
  holds_list (doc_arena (mk_doc h b)) h (children (doc_arena (mk_doc h b)) 1) /\
  holds_list (doc_arena (mk_doc h b)) b (children (doc_arena (mk_doc h b)) 2) /\
  body (mk_doc h b) = Some 2.
Proof.
  unfold mk_doc. pose proof base_doc_wf as W0. set (a0 := [_; _; _]) in *.
  destruct (clone_under_all a0 1 h W0 ltac:(simpl; lia)) as (a1 & ids1 & E1 & K1).
  rewrite E1. pose proof K1 as K1'. destruct K1' as [W1 L1 D1 C1 P1 I1 H1].
  destruct (clone_under_all a1 2 b W1 ltac:(simpl in *; lia)) as (a2 & ids2 & E2 & K2).
  rewrite E2. destruct K2 as [W2 L2 D2 C2 P2 I2 H2]. simpl in L1. simpl.
  assert (children a2 0 = [1; 2]) as Hc0.
  { rewrite C2 by lia. simpl. by rewrite C1 by (simpl; lia). }
  assert (data a2 2 = Some (elem "body" [] NsHtml)) as Hd2.
  { rewrite D2 by lia. by rewrite D1 by (simpl; lia). }
  assert (data a2 1 = Some (elem "head" [] NsHtml)) as Hd1.
  { rewrite D2 by lia. by rewrite D1 by (simpl; lia). }
  split_and!; try done.
  - rewrite D2 by lia. by rewrite D1 by (simpl; lia).
  - rewrite C2 by lia. simpl. rewrite C1 by (simpl; lia). simpl.
    apply (holds_list_agree (fun j => 3 <= j /\ j < length a1) a1).
    + intros i Hi. specialize (I1 i Hi). simpl in I1. split; [lia|].
      destruct (Forall2_in_r _ _ _ _ H1 Hi) as (t & _ & Ht). by eapply holds_lt.
    + intros j c [Hj Hjl] Hc. split; [|by eapply wf_child_lt].
      by apply (cloned_closed a0 a1 1 h ids1 j c W0 K1).
    + intros j [Hj Hjl]. split; [by rewrite D2|]. rewrite C2 by done.
      destruct (Nat.eqb_spec j 2); [lia|done].
    + done.
  - rewrite C2 by lia. simpl. by rewrite C1 by (simpl; lia).
  - unfold body, body_in. simpl. rewrite Hc0. simpl. unfold has_tag, node_kind. by rewrite Hd1, Hd2.
Qed.
