(** From the bytes of connection files and address tables to devices.

    Sources: /repo/uhal/uhal/src/common/NodeTreeBuilder.cpp 151-175, 198-248,
    531-554; ConnectionManager.cpp 59-80, 106-162, 229-284; pugixml.cpp
    5497-5526 (child, attribute, next_sibling).

    The parser is that of Xml.v, the builder that of Builder.v and Table.v, the
    map of connections that of Conn.v. *)
From Coq Require Import NArith List Bool String Ascii.
From Verif Require Import NodeTree Builder Table.
From Verif Require Xml Uri Conn.
Import ListNotations.

(** char_t strings of pugixml as std::string, e.g. xml.cpp 122. *)
Definition str_of (w : Xml.bytes) : Uri.str := map ascii_of_N w.
Definition string_of (w : Xml.bytes) : string := text (str_of w).

(** i->name && strequal(name_, i->name), pugixml.cpp 5502 and 5523: texts and
    CDATA sections have no name. *)
Definition named (nm : string) (e : Xml.xml) : bool :=
  match e with
  | Xml.El n _ _ => String.eqb nm (string_of n)
  | _ => false
  end.

(** xml_node::child with the loop over next_sibling, pugixml.cpp 5497-5526, as in
    NodeTreeBuilder.cpp 533 and 546. *)
Definition all_named (nm : string) (k : list Xml.xml) : list Xml.xml := filter (named nm) k.

(** the attributes of an element, pugixml.cpp 5507-5516 *)
Definition ats_of (a : list (Xml.bytes * Xml.bytes)) : list (string * string) :=
  map (fun nv => (string_of (fst nv), string_of (snd nv))) a.

(** an element as addChildren and the attribute rules see it, NodeTreeBuilder.cpp
    531-554: its attributes, and its children called "node" *)
Fixpoint element_of (e : Xml.xml) : xml :=
  match e with
  | Xml.El _ a k =>
      Xml (ats_of a) (flat_map (fun c => if named "node" c then [element_of c] else []) k)
  | _ => Xml [] []
  end.

(** boost::filesystem::path::filename of a path, NodeTreeBuilder.cpp 209: what
    follows the last '/' *)
Fixpoint file_name (p cur : Uri.str) : Uri.str :=
  match p with
  | [] => cur
  | c :: t => if Ascii.eqb c "/" then file_name t t else file_name t cur
  end.

(** its extension: from the last dot on *)
Fixpoint from_dot (p cur : Uri.str) : Uri.str :=
  match p with
  | [] => cur
  | c :: t => from_dot t (if Ascii.eqb c "." then c :: t else cur)
  end.

(** boost::to_lower in the "C" locale, NodeTreeBuilder.cpp 210 *)
Definition lower (c : ascii) : ascii :=
  let n := N_of_ascii c in
  if ((65 <=? n) && (n <=? 90))%N then ascii_of_N (n + 32) else c.

(** lExtension, NodeTreeBuilder.cpp 209-210: path::extension is empty for "."
    and ".."; four characters of it *)
Definition extension (path : string) : string :=
  let f := file_name (chars path) (chars path) in
  if String.eqb (text f) "." || String.eqb (text f) ".." then EmptyString
  else text (map lower (firstn 4 (from_dot f []))).

(** What CallBack makes of a file, NodeTreeBuilder.cpp 209-247: an element to
    build a tree from; nothing but a message; an exception of the message
    (C114); undefined behaviour (the first element of an empty vector, line 216,
    or C114); UTF-16 and UTF-32 are not modelled. *)
Inductive reading := RTable (x : xml) | RNothing | RThrows | RUndefined | RNotModelled.

Definition read_table (path : string) (file : Xml.bytes) : reading :=
  if String.eqb (extension path) ".xml" then
    match file with
    | [] => RUndefined
    | _ :: _ =>
        match Xml.open_xml file with
        | Xml.Document k =>
            match all_named "node" k with
            | e :: _ => RTable (element_of e)
            | [] => RNothing
            end
        | Xml.Reported _ (Xml.Report _ _ _ _ _) => RNothing
        | Xml.Reported _ Xml.LengthError => RThrows
        | Xml.Reported _ Xml.WildRead | Xml.Crashed | Xml.Hung => RUndefined
        | Xml.NotModelled => RNotModelled
        end
    end
  else RNothing.

(** Where the files are: what OpenFile hands to CallBack for a protocol, the path
    of the file in which the expression stands, and the expression: paths and
    contents, files.cpp 279-341 (C113). *)
Definition disk := string -> string -> string -> list (string * Xml.bytes).

(** CallBack returns. *)
Definition returns (r : reading) : bool := match r with RTable _ | RNothing => true | _ => false end.

(** The tables among them, NodeTreeBuilder.cpp 158-164.  Simplified: if one of the
    files makes the message throw, or behaviour is undefined, there is no tree, as
    if no table had been found. *)
Definition opens_of (d : disk) (prot path expr : string) : list (string * xml) :=
  let l := d prot path expr in
  if forallb (fun f => returns (read_table (fst f) (snd f))) l then
    flat_map (fun f => match read_table (fst f) (snd f) with RTable x => [(fst f, x)] | _ => [] end) l
  else [].

(** getNodeTree, NodeTreeBuilder.cpp 151-175, on the files *)
Definition tree_from (d : disk) (sort : list node -> list node) (is_class : string -> bool) (fuel : nat) (path expr : string) : bres node :=
  get_table (opens_of d) sort is_class fuel path expr.

(** The connection elements of a document: select_nodes("/connections/connection"),
    ConnectionManager.cpp 249, in the order of the document, with the attributes
    that the descriptor looks for, 59-80. *)
Definition connections (k : list Xml.xml) : list Conn.centry :=
  flat_map (fun c => match c with
                     | Xml.El _ _ l =>
                         map (fun e => match e with
                                       | Xml.El _ a _ =>
                                           let get n := option_map chars (assoc n (ats_of a)) in
                                           Conn.mkEnt (get "id"%string) (get "uri"%string) (get "address_table"%string)
                                       | _ => Conn.mkEnt None None None
                                       end) (all_named "connection" l)
                     | _ => []
                     end) (all_named "connections" k).

(** A connection file handed to CallBack, ConnectionManager.cpp 229-249: its
    protocol and path, its path, its contents.  Simplified as in Conn.v: a file
    that is not read, for whatever reason, has no entries. *)
Definition connection_file (name path : Uri.str) (file : Xml.bytes) : Conn.cfile :=
  Conn.mkFile name path (match file, Xml.open_xml file with
                         | _ :: _, Xml.Document k => Some (connections k)
                         | _, _ => None
                         end).

(** What comes of getDevice for an id: an exception of the constructor, 106-128
    (DuplicatedUID), or of getDevice, 136-153; or the URI for the client and what
    comes of building the tree, 155-161. *)
Inductive device := DDuplicated | DUnknown | DDevice (uri : string) (tree : bres node).

Definition get_device (d : disk) (sort : list node -> list node) (is_class : string -> bool) (fuel : nat)
  (cs : list (Uri.str * Uri.str * Xml.bytes)) (id : string) : device :=
  match Conn.manager (map (fun c => connection_file (fst (fst c)) (snd (fst c)) (snd c)) cs) with
  | None => DDuplicated
  | Some m =>
      match Conn.get_device m (chars id) with
      | None => DUnknown
      | Some c => DDevice (text (Conn.d_uri c)) (tree_from d sort is_class fuel (text (Conn.d_file c)) (text (Conn.d_table c)))
      end
  end.
