(** Model of hotmeal-server/src/lib.rs: the live-reload server and the head
    injection helper.

    Not modelled: the postcard encoding of events and patches (events carry
    the patch list itself), tracing, the roam service traits, [loader_script].
    Strings are byte strings; [find] of ASCII needles agrees on bytes and
    characters. *)
From Verif Require Import Base Arena Dom.
Local Open Scope string_scope.

(** [HashMap<String, String>] *)
Definition hmap := list (string * string).
Fixpoint hm_get (m : hmap) (k : string) : option string :=
  match m with
  | [] => None
  | (k', v) :: m' => if String.eqb k' k then Some v else hm_get m' k
  end.
Definition hm_remove (m : hmap) (k : string) : hmap :=
  List.filter (fun kv => negb (String.eqb (fst kv) k)) m.
Definition hm_insert (m : hmap) (k v : string) : hmap := (k, v) :: hm_remove m k.

(** lib.rs:90-95 [LiveReloadServer] *)
Record server := mkServer { html_cache : hmap; head_cache : hmap }.

(** lib.rs:97-103 [new] *)
Definition server_new : server := mkServer [] [].

(** lib.rs:58-70 [LiveReloadEvent] *)
Inductive event :=
| EvReload
| EvPatches (route : string) (ps : list patch)
| EvHeadChanged (route : string).

(** lib.rs:105-108 [cache_html] *)
Definition cache_html (s : server) (route html : string) : server * option string :=
  (mkServer (hm_insert (html_cache s) route html) (head_cache s), hm_get (html_cache s) route).

(** lib.rs:110-119 [cache_head_injections] *)
Definition cache_head (s : server) (route inj : string) : server * bool :=
  (mkServer (html_cache s) (hm_insert (head_cache s) route inj),
   match hm_get (head_cache s) route with
   | Some old => negb (String.eqb old inj)
   | None => negb (String.eqb inj "")
   end).

Section Server.
  (** [hotmeal::diff_html]: [None] stands for [Err].  Everything below is for an
      arbitrary function; it is instantiated with the modelled diff where the
      result matters. *)
  Variable diff_html : string -> string -> option (list patch).

  (** lib.rs:121-181 [diff_route] *)
  Definition diff_route (s : server) (route new_html : string) : server * option event :=
    let updated := mkServer (hm_insert (html_cache s) route new_html) (head_cache s) in
    match hm_get (html_cache s) route with
    | None => (updated, Some EvReload)
    | Some old_html =>
        if String.eqb old_html new_html then (s, None)
        else match diff_html old_html new_html with
             | Some [] => (updated, None)
             | Some ps => (updated, Some (EvPatches route ps))
             | None => (updated, Some EvReload)
             end
    end.

  (** lib.rs:183-203 [diff_route_with_head] *)
  Definition diff_route_with_head (s : server) (route new_html inj : string) : server * option event :=
    let '(s1, changed) := cache_head s route inj in
    if changed then
      (mkServer (hm_insert (html_cache s1) route new_html) (head_cache s1), Some (EvHeadChanged route))
    else diff_route s1 route new_html.
End Server.

(** lib.rs:205-208 [cached_routes] (the order of a [HashMap] is unspecified) *)
Definition cached_routes (s : server) : list string := map fst (html_cache s).

(** lib.rs:210-215 [remove_route] *)
Definition remove_route (s : server) (route : string) : server * bool :=
  (mkServer (hm_remove (html_cache s) route) (hm_remove (head_cache s) route),
   match hm_get (html_cache s) route with
   | Some _ => true
   | None => match hm_get (head_cache s) route with Some _ => true | None => false end
   end).

(** lib.rs:217-221 [clear] *)
Definition server_clear (_ : server) : server := mkServer [] [].

(** ** Head injection *)

Definition is_upper (c : ascii) : bool :=
  let n := Ascii.nat_of_ascii c in Nat.leb 65 n && Nat.leb n 90.
(** [u8::to_ascii_lowercase] / [str::to_ascii_lowercase] *)
Definition lower_char (c : ascii) : ascii :=
  if is_upper c then Ascii.ascii_of_nat (Ascii.nat_of_ascii c + 32) else c.
Fixpoint to_ascii_lowercase (s : string) : string :=
  match s with
  | EmptyString => EmptyString
  | String c s' => String (lower_char c) (to_ascii_lowercase s')
  end.

(** [str::find]: offset of the first occurrence. *)
Fixpoint str_find (needle s : string) : option nat :=
  if String.prefix needle s then Some 0
  else match s with
       | EmptyString => None
       | String _ s' => match str_find needle s' with Some k => Some (S k) | None => None end
       end.

(** Byte slices [&s[..n]] and [&s[n..]]. *)
Fixpoint str_take (n : nat) (s : string) : string :=
  match n, s with
  | S n', String c s' => String c (str_take n' s')
  | _, _ => EmptyString
  end.
Fixpoint str_drop (n : nat) (s : string) : string :=
  match n, s with
  | S n', String _ s' => str_drop n' s'
  | _, _ => s
  end.

(** lib.rs:230-254 [inject_into_head] *)
Definition inject_into_head (html content : string) : string :=
  match str_find "<head" (to_ascii_lowercase html) with
  | Some head_start =>
      match str_find ">" (str_drop head_start html) with
      | Some head_end =>
          let insert_pos := head_start + head_end + 1 in
          str_take insert_pos html ++ content ++ str_drop insert_pos html
      | None => content ++ html
      end
  | None => content ++ html
  end.
