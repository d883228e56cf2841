(** What class the object of a node is to have: said with the elements only. *)
From Coq Require Import NArith List Bool String Ascii Permutation.
From Verif Require Import NodeTree Builder BuildSpec Kinds.
Import ListNotations.

Section Spec.
Variable kind : Type.
Variable plain : kind.
Variable files : string -> string -> option (string * xml).
Variable known : list (string * kind).

(** The class attribute of the element names this known class. *)
Definition names_class (x : xml) (k : kind) : Prop :=
  exists c, attribute x "class" = Some c /\ c <> EmptyString /\ assoc c known = Some k.

(** The class of the object for element [x] of file [path]: the known class it names; else
    Node, but for a module the class of the object for the top element of the file. *)
Inductive given : string -> xml -> kind -> Prop :=
| g_class path x k : names_class x k -> given path x k
| g_plain path x : (forall k, ~ names_class x k) -> attribute x "module" = None -> given path x plain
| g_module path x expr path' x' k : (forall k, ~ names_class x k) -> attribute x "module" = Some expr ->
    files path expr = Some (path', x') -> given path' x' k -> given path x k.

(** The class attribute names no known class. *)
Definition unknown (x : xml) : Prop := exists c, attribute x "class" = Some c /\ c <> EmptyString /\ assoc c known = None.
(** It names no class at all. *)
Definition silent (x : xml) : Prop := attribute x "class" = None \/ attribute x "class" = Some EmptyString.

(** The class asked for: the known class named; Node for an unknown one, as the warning
    says (DerivedNodeFactory.cpp 79); without a class that of the module, if there is one
    (the tests want this: dummy_derived_address.xml 13-15), else Node. *)
Inductive wanted : string -> xml -> kind -> Prop :=
| w_class path x k : names_class x k -> wanted path x k
| w_unknown path x : unknown x -> wanted path x plain
| w_plain path x : silent x -> attribute x "module" = None -> wanted path x plain
| w_module path x expr path' x' k : silent x -> attribute x "module" = Some expr -> files path expr = Some (path', x') ->
    wanted path' x' k -> wanted path x k.
End Spec.

(** The first of the calls of add with this name. *)
Fixpoint first_added {K} (calls : list (string * K)) (name : string) : option K :=
  match calls with
  | [] => None
  | (n, k) :: r => if String.eqb name n then Some k else first_added r name
  end.
