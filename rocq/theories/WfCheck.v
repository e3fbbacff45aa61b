(** A check of well-formedness by computation, for examples. *)
From stdpp Require Import list_numbers.
From Verif Require Import Base Arena ArenaProofs.

Section Check.
  Context {D : Type}.
  Implicit Types a : arena D.

  Definition wf_at a (i : nat) : bool :=
    match parent a i with
    | Some p => existsb (Nat.eqb i) (children a p)
    | None => true
    end
    && forallb (fun c => match parent a c with Some p => Nat.eqb p i | None => false end) (children a i)
    && bool_decide (NoDup (children a i))
    && match ancestors (chain_fuel a) a i with Some _ => true | None => false end.
  Definition wf_check a : bool := forallb (wf_at a) (seq 0 (length a)).

  Lemma wf_check_sound a : wf_check a = true -> wf a.
  Proof.
    intros C. unfold wf_check in C. rewrite forallb_forall in C.
    assert (forall i, i < length a -> wf_at a i = true) as HC by (intros i Hi; apply C, in_seq; lia).
    clear C. split.
    - intros i p. split.
      + intros Hp. pose proof (HC i (parent_lt _ _ _ Hp)) as Hc. unfold wf_at in Hc. rewrite Hp in Hc.
        apply andb_prop in Hc as [Hc _]. apply andb_prop in Hc as [Hc _]. apply andb_prop in Hc as [Hc _].
        apply existsb_exists in Hc as (x & Hx & E). apply Nat.eqb_eq in E as ->. by apply elem_of_list_In.
      + intros Hi. pose proof (HC p (children_lt _ _ _ Hi)) as Hc. unfold wf_at in Hc.
        apply andb_prop in Hc as [Hc _]. apply andb_prop in Hc as [Hc _]. apply andb_prop in Hc as [_ Hc].
        rewrite forallb_forall in Hc. specialize (Hc i (proj1 (elem_of_list_In _ _) Hi)).
        destruct (parent a i); [|done]. by apply Nat.eqb_eq in Hc as ->.
    - intros p. destruct (decide (p < length a)) as [Hp|Hp].
      + pose proof (HC p Hp) as Hc. unfold wf_at in Hc.
        apply andb_prop in Hc as [Hc _]. apply andb_prop in Hc as [_ Hc]. by apply bool_decide_eq_true in Hc.
      + rewrite children_ge by lia. constructor.
    - intros i. destruct (decide (i < length a)) as [Hi|Hi].
      + pose proof (HC i Hi) as Hc. unfold wf_at in Hc. apply andb_prop in Hc as [_ Hc].
        destruct (ancestors (chain_fuel a) a i) as [l|] eqn:E; [|done]. exists l. by eapply ancestors_some.
      + exists []. constructor. apply parent_ge. lia.
  Qed.
End Check.
