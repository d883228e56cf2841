(** The tables of registers in the window of the GUI: which values they show.

    Source: /repo/uhal/gui/pkg/uhal/gui/guis/hardware_table_panel.py 73-87, 192-219, 267-280, 286-297 and
    312-376.

    Simplifications: dictionaries are association lists in the order of their keys; a row is its id
    and the value it shows ([None]: nothing read yet); colours other than that of a table and the plots
    are not here. *)
From Coq Require Import NArith List Bool String Ascii DecimalString DecimalN.
Import ListNotations.

(** The dictionary that the polling thread sends: end points and the values of their registers.
    hardware_monitoring.py 60-97. *)
Definition hw_info := list (string * list (string * N)).

(** A key of a dictionary, hardware_table_panel.py 74-77. *)
Fixpoint lookup_key {A} (k : string) (l : list (string * A)) : option A :=
  match l with [] => None | (x, v) :: r => if String.eqb k x then Some v else lookup_key k r end.

(** x in s, for strings: [x] is somewhere in [s].  hardware_table_panel.py 208. *)
Fixpoint contains (x s : string) : bool :=
  String.prefix x s || match s with EmptyString => false | String _ r => contains x r end.

(** class Widget: its id, whether its background is red, its rows.  hardware_table_panel.py 150-219. *)
Record widget := { w_id : string; w_red : bool; w_rows : list (string * option N) }.

(** NodeWidget.update, hardware_table_panel.py 73-79. *)
Definition update_row (vals : list (string * N)) (r : string * option N) : string * option N :=
  match lookup_key (fst r) vals with Some v => (fst r, Some v) | None => r end.

(** Widget.update, hardware_table_panel.py 205-219. *)
Definition update_widget (info : hw_info) (w : widget) : widget :=
  match filter (fun k => contains (fst k) (w_id w)) info with
  | [] => {| w_id := w_id w; w_red := true; w_rows := w_rows w |}
  | k :: _ => {| w_id := w_id w; w_red := false; w_rows := map (update_row (snd k)) (w_rows w) |}
  end.
(** HardwareTablePanel.update, hardware_table_panel.py 286-297. *)
Definition update_panel (info : hw_info) (ws : list widget) : list widget := map (update_widget info) ws.

(** str of a number, hardware_table_panel.py 275. *)
Definition str (n : N) : string := NilEmpty.string_of_uint (N.to_uint n).
(** The id of a new table, hardware_table_panel.py 275. *)
Definition widget_id (endpoint : string) (count : N) : string := (endpoint ++ "_" ++ str count)%string.
(** add_new_widget with given rows, hardware_table_panel.py 267-280.  Simplified: the text that a row
    has at first, from the tree or N/A (lines 362-371), is [None]. *)
Definition new_widget (endpoint : string) (count : N) (rows : list string) : widget :=
  {| w_id := widget_id endpoint count; w_red := false; w_rows := map (fun r => (r, None)) rows |}.

(** list.remove, hardware_table_panel.py 349-350: the first that is equal. *)
Fixpoint remove_first (x : string) (l : list string) : list string :=
  match l with [] => [] | y :: r => if String.eqb x y then r else y :: remove_first x r end.
(** '.'.join, hardware_table_panel.py 352. *)
Fixpoint dotted (l : list string) : string := match l with [] => "" | [x] => x | x :: r => (x ++ "." ++ dotted r)%string end.
(** prefix_id for the names from the end point to the node selected, hardware_table_panel.py 345-352. *)
Definition prefix_id (nodes : list string) : string :=
  if Nat.leb (List.length nodes) 2 then ""
  else let l := remove_first (hd EmptyString nodes) nodes in dotted (remove_first (last l EmptyString) l).
(** (not prefix_id) and start_item.getId() or (prefix_id + '.' + start_item.getId()),
    hardware_table_panel.py 363 and 370.  Simplified: an empty id, for which the second is taken, gives
    "." in the code and the empty string here. *)
Definition under (prefix id : string) : string :=
  match prefix with EmptyString => id | p => (p ++ "." ++ id)%string end.
(** The id of the row of the node selected, hardware_table_panel.py 363 and 370; [id]: its own,
    the last of [nodes]. *)
Definition row_id (nodes : list string) (id : string) : string :=
  under (prefix_id nodes) id.

(** A node of the tree given to the panel, with the nodes below it; a register has none.  The rows need
    only the ids.  hardware_monitoring.py 19-21, hardware_table_panel.py 355-378. *)
Inductive item := Item (id : string) (below : list item).
(** __fill_widget_nodes for a node: the ids of the rows added, hardware_table_panel.py 361-378.
    Dictionaries in the order of their keys. *)
Fixpoint fill_nodes (prefix : string) (t : item) : list string :=
  match t with Item id below =>
    let w := under prefix id in
    w :: flat_map (fill_nodes w) below end.
(** add_new_widget for an end point with [items], [nodes] being its name only: hardware_table_panel.py
    345-353 and 377-378. *)
Definition endpoint_table (e : string) (count : N) (items : list item) : widget :=
  new_widget e count (flat_map (fill_nodes (prefix_id [e])) items).
(** add_new_widget for the node [t] at the end of [nodes], hardware_table_panel.py 267-280 and 345-378. *)
Definition node_table (nodes : list string) (count : N) (t : item) : widget :=
  new_widget (hd EmptyString nodes) count (fill_nodes (prefix_id nodes) t).

(** The search for the item selected: start_item after the loop over [nodes], hardware_table_panel.py
    321-341.  A name that is not there is passed over.  Simplified: a register has no items below it
    here; in the code the loop over its value would raise an exception. *)
Fixpoint find_item (nodes : list string) (tree : list item) (start : option item) : option item :=
  match nodes with
  | [] => start
  | n :: r => match find (fun t => match t with Item id _ => String.eqb id n end) tree with
    | Some (Item id below) => find_item r below (Some (Item id below))
    | None => find_item r tree start
    end
  end.
(** add_new_widget, hardware_table_panel.py 267-280 and 310-378; [tree]: the end points with their
    nodes.  Simplified: an item is an end point if only one name is given (the code asks for its type),
    and the exception for an item not found is [None]. *)
Definition add_table (nodes : list string) (tree : list item) (count : N) : option widget :=
  match find_item nodes tree None with
  | None => None
  | Some (Item id below) => Some (match nodes with [e] => endpoint_table e count below | _ => node_table nodes count (Item id below) end)
  end.
