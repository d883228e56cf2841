(** All packets a client hands to its transport over its life time: user calls
    and dispatches only; what the target does with the packets does not matter
    for their content (the packing never looks at a reply). *)
From Verif Require Import Word Bits Header ValMem Client.
From Coq Require Import NArith List Bool.
Import ListNotations.
Open Scope N_scope.

(** The two kinds of calls: ClientInterface.cpp 408-490 and 143-180. *)
Inductive cmd := COp (o : op) | CDispatch.

(** One call; the second component of the state collects the packets whose
    dispatch() has completed, [s_out] the later ones.  [None] is undefined
    behaviour or non-termination ([Bad]); an exception leaves the state the C++
    leaves and the caller goes on.  ClientInterface.cpp 143-180 and 408-490. *)
Definition client_step (g : cfg) (y : st * list buf) (c : cmd) : option (st * list buf) :=
  let (s, hist) := y in
  match c with
  | COp o => match run_op g s o with
             | Ok s _ => Some (s, hist)
             | Exc s _ => Some (s, hist)
             | Bad => None
             end
  | CDispatch =>
      match dispatch_send g s with
      | Ok s _ => Some (mkSt (s_ctr s) (s_cur s) (s_heap s) [] (s_budget s), hist ++ s_out s)
      | Exc s _ => Some (s, hist)
      | Bad => None
      end
  end.

(** A sequence of calls.  Not in the code: a sequence of calls. *)
Fixpoint client_run (g : cfg) (y : st * list buf) (cs : list cmd) : option (st * list buf) :=
  match cs with
  | [] => Some y
  | c :: t => match client_step g y c with Some y' => client_run g y' t | None => None end
  end.

(** All packets sent by a fresh client.  Not in the code. *)
Definition sent (g : cfg) (cs : list cmd) : option (list buf) :=
  option_map (fun y => snd y ++ s_out (fst y)) (client_run g (init_st, []) cs).

(** The operations among the calls.  Not in the code. *)
Definition cmd_ops (cs : list cmd) : list op :=
  flat_map (fun c => match c with COp o => [o] | CDispatch => [] end) cs.
