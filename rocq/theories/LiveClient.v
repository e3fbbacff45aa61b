(** The rest of the browser client, hotmeal-wasm/src/lib.rs: the slot table
    (70-109), the mount point (126-181, 333-344), the handling of events
    (197-235) and the reconnection loop (237-322).

    Not modelled: logging, JavaScript error values (all are [DomException] here),
    the roam transport itself, [spawn_local], [apply_patches_json].  A reload
    replaces the document by the one the server serves at that moment. *)
From Verif Require Import Base Arena Dom Browser Server Wire.
Local Open Scope string_scope.

(** ** Slots, lib.rs:74-109: [Vec<Option<Node>>] *)
Definition vslots := list (option nat).
Definition vs_new : vslots := [].
(** lib.rs:83-89; [resize] fills with [None]. *)
Definition vs_store (v : vslots) (k n : nat) : vslots :=
  let v1 := if Nat.leb (length v) k then (v ++ repeat None (k + 1 - length v))%list else v in
  <[k := Some n]> v1.
(** lib.rs:91-98 *)
Definition vs_take (v : vslots) (k : nat) : vslots * option nat :=
  if Nat.ltb k (length v) then (<[k := None]> v, match v !! k with Some o => o | None => None end)
  else (v, None).
(** lib.rs:100-103 *)
Definition vs_get (v : vslots) (k : nat) : option nat :=
  match v !! k with Some o => o | None => None end.

(** ** Mount point *)
Section Mount.
  Variables valid_elem valid_attr : string -> bool.
  Variable parse_template : string -> list htree.
  (** [document.querySelector(s)]: [None] if the selector is not valid, else the
      first element that matches, if any. *)
  Variable query_selector : document -> string -> option (option nat).

  (** lib.rs:333-344 [resolve_mount_point] *)
  Definition resolve_mount_point (d : document) (selector : string) : outcome nat :=
    if String.eqb selector "body" then
      match body d with Some b => Val b | None => Fail DomException end
    else
      match query_selector d selector with
      | None => Fail DomException
      | Some None => Fail DomException
      | Some (Some n) => Val n
      end.

  (** lib.rs:153-169 [apply_patches_on], [apply_patches_with_slots_on] *)
  Definition apply_patches_on (d : document) (ps : list patch) (selector : string) : document * outcome nat :=
    match resolve_mount_point d selector with
    | Val root =>
        let '((a, _), r) := b_apply_all valid_elem valid_attr parse_template root (doc_arena d, []) ps in
        (mkDoc a (doc_root d) (doc_doctype d), let! _ := r in Val (length ps))
    | Fail e => (d, Fail e)
    | Panic => (d, Panic)
    | Diverge => (d, Diverge)
    end.

  (** lib.rs:172-181 [apply_patches_postcard_on] *)
  Definition apply_patches_postcard_on (d : document) (blob selector : string) : document * outcome nat :=
    match from_blob blob with
    | None => (d, Fail DomException)
    | Some ps => apply_patches_on d ps selector
    end.

  (** lib.rs:212-235 [handle_live_reload_event]; [fresh] is the document a reload
      gives.  The route in the event is not looked at. *)
  Definition handle_event (selector : string) (fresh d : document) (e : wire_event) : document * outcome unit :=
    match e with
    | WReload => (fresh, Val tt)
    | WPatches _ blob =>
        let '(d', r) := apply_patches_postcard_on d blob selector in (d', let! _ := r in Val tt)
    | WHeadChanged _ => (fresh, Val tt)
    end.

  (** lib.rs:203-210 [on_event]: an error is logged, nothing else. *)
  Definition on_event (selector : string) (fresh d : document) (e : wire_event) : document :=
    fst (handle_event selector fresh d e).
End Mount.

(** ** Reconnection, lib.rs:252-276 [live_reload_loop] *)

Definition first_backoff : N := 100.
Definition max_backoff : N := 5000.
(** One turn of the loop: whether the session ended with [Ok]; the time slept and
    the next value of [backoff_ms] (no overflow: C55). *)
Definition backoff_turn (backoff : N) (ok : bool) : N * N :=
  let b := if ok then first_backoff else backoff in (b, N.min (b * 2) max_backoff).
(** The times slept, in milliseconds, after sessions with the given results. *)
Fixpoint sleeps (backoff : N) (sessions : list bool) : list N :=
  match sessions with
  | [] => []
  | ok :: l => let '(t, b) := backoff_turn backoff ok in t :: sleeps b l
  end.
Definition live_reload_loop (sessions : list bool) : list N := sleeps first_backoff sessions.
