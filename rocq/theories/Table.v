(** Address tables read with the grammars of the code.

    Source: /repo/uhal/uhal/src/common/NodeTreeBuilder.cpp 151-171, 376-395 and
    508-528. *)
From Coq Require Import NArith List Bool String Ascii.
From Verif Require Import NodeTree Builder.
From Verif Require Uri.
Import ListNotations.

(** std::string in Uri.v is a list of characters.  NodeTreeBuilder.cpp 376-395. *)
Definition chars (s : string) : Uri.str := list_ascii_of_string s.
Definition text (l : Uri.str) : string := string_of_list_ascii l.
Definition texts (l : list (Uri.str * Uri.str)) : list (string * string) := map (fun kv => (text (fst kv), text (snd kv))) l.

(** phrase_parse into lPars, NodeTreeBuilder.cpp 387: its result is not looked
    at, and what it has not read is dropped. *)
Definition grammar_pars (s : string) : list (string * string) :=
  match Uri.parse_params (chars s) with Uri.POk ps _ => texts ps | _ => [] end.

(** phrase_parse into lFwInfo, NodeTreeBuilder.cpp 520: the same, but it may
    throw. *)
Definition grammar_fw (s : string) : option (string * list (string * string)) :=
  match Uri.parse_fwinfo (chars s) with
  | Uri.POk (e, ps) _ => Some (text e, texts ps)
  | Uri.PFail => Some (EmptyString, [])
  | Uri.PThrow => None
  end.

(** The files an expression refers to, NodeTreeBuilder.cpp 153-171: [opens] is
    what OpenFile (files.cpp 128-200) and CallBack make of one item of the list
    found in the file at a path: the paths and top elements of address tables.
    Simplified: all exceptions of this part are the same. *)
Definition table_files (opens : string -> string -> string -> list (string * xml)) (path expr : string) : option (string * xml) :=
  match Uri.parse_uri_list (chars expr) with
  | Some [(prot, f)] => match opens (text prot) path (text f) with [r] => Some r | _ => None end
  | _ => None
  end.

(** getNodeTree, NodeTreeBuilder.cpp 151-175, with these. *)
Definition get_table (opens : string -> string -> string -> list (string * xml)) (sort : list node -> list node) (is_class : string -> bool) :=
  get_node_tree grammar_pars grammar_fw (table_files opens) sort is_class.
