(** The state that NodeTreeBuilder keeps between and during calls: the trees it
    has built, and the stack of files being read.

    Source: /repo/uhal/uhal/src/common/NodeTreeBuilder.cpp 151-305 and 531-554,
    utilities/files.cpp 279-341. *)
From Coq Require Import NArith List Bool String Ascii.
From Verif Require Import NodeTree Rules Builder.
Import ListNotations.

(** mNodes and mFileCallStack, NodeTreeBuilder.hpp 173 and 180; the top of the stack
    first. *)
Record cstate := mkC { c_nodes : list (string * node); c_stack : list string }.
(** A new builder, NodeTreeBuilder.cpp 75-131. *)
Definition new_builder : cstate := mkC [] [].

(** Result of a member function: a result or exception with the state left
    behind, or an access to an empty stack (std::deque::back, NodeTreeBuilder.cpp
    282). *)
Inductive cres (A : Type) := CRes (r : bres A) (s : cstate) | CUb.
Arguments CRes {A}. Arguments CUb {A}.

(** Not in the code: exceptions stop the builder. *)
Definition cbind {A B} (r : cres A) (f : A -> cstate -> cres B) : cres B :=
  match r with
  | CRes (BOk x) s => f x s
  | CRes (BExc e) s => CRes (BExc e) s
  | CRes BFuel s => CRes BFuel s
  | CUb => CUb
  end.

(** The loop over the child elements, NodeTreeBuilder.cpp 546-549. *)
Definition cmapM {A B} (f : A -> cstate -> cres B) : list A -> cstate -> cres (list B) :=
  fix go l s :=
    match l with
    | [] => CRes (BOk []) s
    | x :: r => cbind (f x s) (fun y s => cbind (go r s) (fun ys s => CRes (BOk (y :: ys)) s))
    end.

(** What ParseSemicolonDelimitedUriList and OpenFile do, NodeTreeBuilder.cpp
    153-164, files.cpp 64-128 and 279-341: call CallBack for a file, by its
    protocol and path, or throw. *)
Inductive fev := FFile (http : bool) (path : string) | FThrow (e : bexc).

(** The files as they are at the time of a call: the calls and exceptions for an
    expression found in the file at a path, and the top element of an address
    table, [None] if it has no extension .xml, is not well formed or has no
    element "node", NodeTreeBuilder.cpp 209-246. *)
Record world := mkW { w_open : string -> string -> list fev; w_read : bool -> string -> option xml }.

(** lName, NodeTreeBuilder.cpp 200. *)
Definition cache_key (http : bool) (path : string) : string := ((if http then "http" else "file") ++ path)%string.

Section Cache.
(** As in Builder.v. *)
Variable parse_pars : string -> list (string * string).
Variable parse_fw : string -> option (string * list (string * string)).
Variable sort : list node -> list node.
Variable is_class : string -> bool.

Section Element.
(** getNodeTree for a module. *)
Variable load : string -> string -> cstate -> cres node.

(** mTopLevelNodeParser and mNodeParser applied to an element, with the creators,
    NodeTreeBuilder.cpp 251-335 and 531-554; as [element] in Builder.v, but the
    path is the top of the stack.  Simplified: any element handled with an empty
    stack is an access to it, although setModule (436) makes sure of one. *)
Fixpoint celement (req : bool) (x : xml) (s : cstate) : cres node :=
  match c_stack s with
  | [] => CUb
  | path :: _ =>
      match (if req then node_parser else top_parser) with
      | None => CRes (BExc (Parser_exc LengthError)) s
      | Some p =>
          match parse p (map fst (x_ats x)) with
          | Run O =>
              cbind (CRes (plain_attrs parse_pars parse_fw path req x) s) (fun a s =>
              match x with
              | Xml _ xs =>
                  if mode_eqb (a_mode a) NON_INCREMENTAL then
                    match xs with
                    | [] => CRes (BOk (convert is_class (Node a [] []))) s
                    | _ :: _ => CRes (BExc BlockAccessNodeCannotHaveChild) s
                    end
                  else
                    cbind (cmapM (celement true) xs s) (fun cs s =>
                    let ch := number 0 cs in
                    CRes (BOk (convert is_class (Node a (children_map ch) ch))) s)
              end)
          | Run 1 => CRes (mask_node parse_pars parse_fw path req x) s
          | Run _ =>
              cbind (load path (attr_str x "module") s) (fun t s =>
              match c_stack s with
              | [] => CUb
              | path :: _ =>
                  CRes (bind (module_attrs parse_pars parse_fw path req x (n_at t)) (fun a =>
                        BOk (convert is_class (Node a (n_map t) (n_ch t))))) s
              end)
          | e => CRes (BExc (Parser_exc e)) s
          end
      end
  end.

(** build, NodeTreeBuilder.cpp 186-195: an exception of the parser leaves the path
    on the stack. *)
Definition cbuild (path : string) (x : xml) (s : cstate) : cres node :=
  cbind (celement false x (mkC (c_nodes s) (path :: c_stack s))) (fun t s =>
  CRes (calculate sort t 0) (mkC (c_nodes s) (tl (c_stack s)))).

(** CallBack, NodeTreeBuilder.cpp 198-248: what it adds to aNodes. *)
Definition callback (w : world) (http : bool) (path : string) (s : cstate) : cres (list node) :=
  match assoc (cache_key http path) (c_nodes s) with
  | Some t => CRes (BOk [t]) s
  | None =>
      match w_read w http path with
      | None => CRes (BOk []) s
      | Some x => cbind (cbuild path x s) (fun t s =>
                  CRes (BOk [t]) (mkC (map_insert (c_nodes s) (cache_key http path) t) (c_stack s)))
      end
  end.

(** The loops of OpenFile, files.cpp 284-304, 308-321 and 324-341. *)
Fixpoint opened (w : world) (l : list fev) (s : cstate) : cres (list node) :=
  match l with
  | [] => CRes (BOk []) s
  | FThrow e :: _ => CRes (BExc e) s
  | FFile http path :: r =>
      cbind (callback w http path s) (fun a s => cbind (opened w r s) (fun b s => CRes (BOk (a ++ b)) s))
  end.
End Element.

(** getNodeTree, NodeTreeBuilder.cpp 151-175. *)
Fixpoint cget (w : world) (fuel : nat) (path expr : string) (s : cstate) : cres node :=
  match fuel with
  | O => CRes BFuel s
  | S f =>
      cbind (opened (cget w f) w (w_open w path expr) s) (fun l s =>
      match l with
      | [t] => CRes (BOk (clone t)) s
      | _ => CRes (BExc IncorrectAddressTableFileCount) s
      end)
  end.

(** The public calls: getNodeTree with the files as they are at that time, and
    clearAddressFileCache, NodeTreeBuilder.cpp 178-183. *)
Inductive bop := OGet (w : world) (fuel : nat) (path expr : string) | OClear.

(** A sequence of calls, the caller handling exceptions; [None] if one of them
    does not come to an end.  Not in the code. *)
Fixpoint calls (l : list bop) (s : cstate) : option cstate :=
  match l with
  | [] => Some s
  | OClear :: r => calls r (mkC [] (c_stack s))
  | OGet w fuel path expr :: r =>
      match cget w fuel path expr s with
      | CRes BFuel _ | CUb => None
      | CRes _ s => calls r s
      end
  end.
End Cache.
