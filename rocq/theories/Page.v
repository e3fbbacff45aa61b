(** Model of [diff_html] (hotmeal/src/diff.rs:1033-1044): parse both texts, then
    [diff]. *)
From Verif Require Import Base Arena Matching Chawathe Dom HtmlDiff Sink.

Section Page.
  Context {H : Type}.
  Variables (heqb : H -> H -> bool) (hcomb : hkind -> option string -> list H -> H) (h0 : H).
  (** html5ever, see Sink.v. *)
  Variable html5ever : string -> list sink_call.

  (** diff.rs:1037-1044 *)
  Definition diff_html (old_html new_html : string) : outcome (list patch) :=
    let! old := parse html5ever old_html in
    let! new := parse html5ever new_html in
    diff heqb hcomb h0 old new.
End Page.
