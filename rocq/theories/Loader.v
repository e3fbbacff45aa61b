(** hotmeal-server/src/lib.rs:256-280 [loader_script]: the script element that starts
    live reload in a page. *)
From Verif Require Import Base Server.
Local Open Scope string_scope.

Definition newline : string := String (Ascii.ascii_of_nat 10) "".

(** lib.rs:264-280 *)
Definition loader_script (wasm_js_url wasm_url mount_selector ws_url : string) : string :=
  "<script type=""module"">" ++ newline ++
  "import init, { start_live_reload } from """ ++ wasm_js_url ++ """;" ++ newline ++
  "await init(""" ++ wasm_url ++ """);" ++ newline ++
  "start_live_reload(""" ++ ws_url ++ """, """ ++ mount_selector ++ """);" ++ newline ++
  "</script>".
