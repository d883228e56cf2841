(** The tree that the polling thread of the GUI makes for the windows.

    Source: /repo/uhal/gui/pkg/uhal/gui/utilities/hardware_monitoring.py 115-164. *)
From Coq Require Import NArith List Bool String.
From Verif Require Import Word ValMem Client NodeTree RegDump GuiTree Widget.
Import ListNotations.

(** HardwareMonitoring.__build_tree, hardware_monitoring.py 149-164: what parent[item] gets; [None]: an
    exception.  [fuel] is never used up when it is at least the number of nodes.  Simplified: getNode
    is not called here for the nodes that line 157 passes over; the value 0 of a register is not here. *)
Fixpoint build_tree (fuel : nat) (n : node) : option (list item) :=
  match fuel with
  | O => None
  | S f =>
      match names n [], names_matching first_level n [] with
      | Some l, Some first =>
          each (fun x => match child_at n x with
            | None => None
            | Some c => match names c [] with
              | None => None
              | Some [] => Some (Item (a_id (n_at c)) [])
              | Some _ => option_map (Item (a_id (n_at c))) (build_tree f c)
              end
            end) (filter (fun x => existsb (String.eqb x) first) l)
      | _, _ => None
      end
  end.
(** __hw_tree after the constructor, hardware_monitoring.py 123-126 and 139-145: the devices with their
    trees. *)
Definition hw_tree (devices : list (string * node)) : option (list item) :=
  each (fun d => option_map (Item (fst d)) (build_tree (size (snd d)) (snd d))) devices.
