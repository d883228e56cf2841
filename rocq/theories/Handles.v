(** The user's view of validated memory: variables holding handles, copies of
    handles, and the calls that try to modify what they refer to.

    Source: /repo/uhal/uhal/src/common/ValMem.cpp lines 103-402 and
    /repo/uhal/uhal/include/uhal/TemplateDefinitions/ValMem.hxx 52-66.
    A variable holds the index of a cell: copying a handle copies the
    shared_ptr mMembers (ValMem.cpp 97-101, 195-199), and so does assigning one
    handle to another (implicit copy assignment).  A ValHeader made from a ValWord
    or ValVector (ValMem.hxx 52-66) is a copy of which only valid() can be called. *)
From Verif Require Import Word Bits ValMem.
From Coq Require Import NArith List Bool.
Import ListNotations.
Open Scope N_scope.

(** Variables and cells.  ValMem.hpp 182, 265, 404 (shared_ptr mMembers). *)
Record hst := mkHst { h_vars : list nat; h_heap : list cell }.

(** Calls on variable [v].  ValMem.cpp 103-402. *)
Inductive hcall :=
| HCopy (v : nat)                       (* ValWord<T> w(v) *)
| HValue (v : nat) (x : N)              (* v.value(x), word *)
| HPush (v : nat) (x : N)               (* v.push_back(x) *)
| HSet (v : nat) (l : list N)           (* v.value(l), v.assign(begin, end) *)
| HAssign (v : nat) (x : N)             (* v = x *)
| HMask (v : nat) (m : N)               (* v.mask(m) *)
| HClear (v : nat)                      (* v.clear() *)
| HValid (v : nat) (b : bool)           (* v.valid(b), a public function *)
| HBind (v w : nat).                    (* v = w, both handles *)

(** The variable a call is made on.  Not in the code: projection. *)
Definition hvar (c : hcall) : nat :=
  match c with
  | HCopy v | HValue v _ | HPush v _ | HSet v _ | HAssign v _ | HMask v _ | HClear v
  | HValid v _ | HBind v _ => v
  end.

(** valid(bool) with any argument.  ValMem.cpp 82-85, 118-122, 223-227. *)
Definition cell_set_valid (k : cell) (b : bool) : cell :=
  match k with
  | CHdr _ => CHdr b
  | CWord _ x m => CWord b x m
  | CVec _ l => CVec b l
  end.

(** New content of the cell, [None] when the call raises
    ValMemImutabilityViolation.  Simplified: calls of a word function on a vector
    and vice versa, which do not type check in C++, raise here.  ValMem.cpp 103-402. *)
Definition hmod (c : hcall) (k : cell) : option cell :=
  match c with
  | HCopy _ => Some k
  | HValue _ x => word_set k x
  | HPush _ x => vec_push k x
  | HSet _ l => vec_set k l
  | HAssign _ x => Some (word_assign k x)
  | HMask _ m => Some (word_set_mask k m)
  | HClear _ => Some (vec_clear k)
  | HValid _ b => Some (cell_set_valid k b)
  | HBind _ _ => Some k
  end.

(** One call; the flag tells whether it raised.  ValMem.cpp 103-402. *)
Definition hstep (s : hst) (c : hcall) : hst * bool :=
  match nth_error (h_vars s) (hvar c) with
  | None => (s, true)
  | Some i =>
      match nth_error (h_heap s) i with
      | None => (s, true)
      | Some k =>
          match hmod c k with
          | None => (s, true)
          | Some k' =>
              (mkHst (match c with
                      | HCopy _ => h_vars s ++ [i]
                      | HBind v w =>
                          match nth_error (h_vars s) w with
                          | Some j => upd (h_vars s) v (fun _ => j)
                          | None => h_vars s
                          end
                      | _ => h_vars s
                      end)
                     (upd (h_heap s) i (fun _ => k')), false)
          end
      end
  end.

(** A sequence of calls.  Not in the code: a sequence of calls. *)
Fixpoint hrun (s : hst) (cs : list hcall) : hst :=
  match cs with [] => s | c :: t => hrun (fst (hstep s c)) t end.

(** What a variable shows: the values its accessors return.
    ValMem.cpp 112-115, 141-153, 217-220, 375-387. *)
Definition shows (s : hst) (v : nat) : option (option N * option (list N) * bool) :=
  match nth_error (h_vars s) v with
  | None => None
  | Some i => option_map (fun k => (word_value k, vec_value k, cell_valid k)) (nth_error (h_heap s) i)
  end.
