(** The connection manager and the interval statistics.

    Sources: /repo/uhal/uhal/src/common/ConnectionManager.cpp 59-101, 106-128,
    136-162, 187-198, 229-284; utilities/xml.cpp 115-134;
    utilities/TimeIntervalStats.cpp 11-75, TimeIntervalStats.hpp 35-42. *)
From Coq Require Import NArith ZArith List Bool Ascii.
From Verif Require Import Uri.
Import ListNotations.

(** An element /connections/connection: the three attributes, if present
    (xml.cpp 115-134). *)
Record centry := mkEnt { e_id : option str; e_uri : option str; e_table : option str }.

(** A file handed to CallBack: protocol and path as in the set of opened files,
    the path, and its connection elements; [None]: not well-formed XML.
    ConnectionManager.cpp 229-249.  Simplified: an empty file, for which line 240 takes the address of element 0 of an empty vector, counts as not well formed. *)
Record cfile := mkFile { f_name : str; f_path : str; f_body : option (list centry) }.

(** ConnectionDescriptor, ConnectionManager.hpp 82-107. *)
Record cdesc := mkDesc { d_id : str; d_uri : str; d_table : str; d_file : str }.

(** Constructor of ConnectionDescriptor, 59-80; [None]: aSuccess is false. *)
Definition descriptor (e : centry) (path : str) : option cdesc :=
  match e_id e, e_uri e, e_table e with
  | Some i, Some u, Some t => Some (mkDesc i u t path)
  | _, _, _ => None
  end.

(** operator==, 83-101. *)
Definition same_desc (a b : cdesc) : bool :=
  str_eqb (d_id a) (d_id b) && str_eqb (d_uri a) (d_uri b) && str_eqb (d_table a) (d_table b).

(** std::string::operator<: lexicographic order of unsigned characters.
    As used by the map of ConnectionManager.cpp 148 and 258. *)
Fixpoint str_ltb (a b : str) : bool :=
  match a, b with
  | _, [] => false
  | [], _ :: _ => true
  | x :: a', y :: b' =>
      if N.ltb (N_of_ascii x) (N_of_ascii y) then true
      else if N.ltb (N_of_ascii y) (N_of_ascii x) then false else str_ltb a' b'
  end.

(** std::map: association list in key order.  mConnectionDescriptors, ConnectionManager.cpp 148. *)
Definition cmap := list (str * cdesc).
(** ConnectionManager.cpp 148. *)
Fixpoint map_find (m : cmap) (i : str) : option cdesc :=
  match m with
  | [] => None
  | (j, d) :: t => if str_ltb i j then None else if str_ltb j i then map_find t i else Some d
  end.
(** std::map::insert of a new key.  ConnectionManager.cpp 258. *)
Fixpoint map_put (m : cmap) (i : str) (d : cdesc) : cmap :=
  match m with
  | [] => [(i, d)]
  | (j, e) :: t => if str_ltb i j then (i, d) :: m else (j, e) :: map_put t i d
  end.

(** The loop of CallBack, 251-283; [None]: DuplicatedUID. *)
Fixpoint add_entries (m : cmap) (path : str) (es : list centry) : option cmap :=
  match es with
  | [] => Some m
  | e :: t =>
      match descriptor e path with
      | None => add_entries m path t
      | Some d =>
          match map_find m (d_id d) with
          | None => add_entries (map_put m (d_id d) d) path t
          | Some d' => if same_desc d' d then add_entries m path t else None
          end
      end
  end.

(** CallBack, 229-284: the map and the names of the files already opened. *)
Definition callback (y : cmap * list str) (f : cfile) : option (cmap * list str) :=
  let (m, opened) := y in
  if existsb (str_eqb (f_name f)) opened then Some y
  else match f_body f with
       | None => Some (m, f_name f :: opened)
       | Some es => match add_entries m (f_path f) es with
                    | Some m' => Some (m', f_name f :: opened)
                    | None => None
                    end
       end.

(** The constructors, 106-128, on the files found by OpenFile in order. *)
Fixpoint load_files (y : cmap * list str) (fs : list cfile) : option (cmap * list str) :=
  match fs with
  | [] => Some y
  | f :: t => match callback y f with Some y' => load_files y' t | None => None end
  end.
Definition manager (fs : list cfile) : option cmap := option_map fst (load_files ([], []) fs).

(** getDevices, 187-198. *)
Definition get_devices (m : cmap) : list str := map fst m.

(** getDevice, 136-161, up to the descriptor from which tree and client are made;
    [None]: ConnectionUIDDoesNotExist. *)
Definition get_device (m : cmap) (i : str) : option cdesc :=
  match m with [] => None | _ => map_find m i end.

(** ** Interval statistics *)

(** Members, TimeIntervalStats.hpp 35-42; durations as integers (int64_t
    nanoseconds). *)
Record stats := mkStats { t_latest : list Z; t_min : Z; t_max : Z; t_sum : Z; t_n : nat }.

(** The constructor initialises only nMeasurements, TimeIntervalStats.cpp 11-14:
    the three durations have any value. *)
Definition new_stats (mn mx sm : Z) : stats := mkStats [] mn mx sm 0.

(** add, 52-67, of an interval; sums of int64_t are taken not to overflow. *)
Definition add_stat (s : stats) (x : Z) : stats :=
  let q := t_latest s ++ [x] in
  mkStats (if Nat.ltb 5 (length q) then tl q else q)
          (if Nat.eqb (t_n s) 0 || (x <? t_min s)%Z then x else t_min s)
          (if Nat.eqb (t_n s) 0 || (t_max s <? x)%Z then x else t_max s)
          (t_sum s + x) (S (t_n s)).

(** mean, 40-43: int64_t divided by size_t is done in uint64_t, and the result
    converted to int64_t.  [None]: division by zero. *)
Definition mean (s : stats) : option Z :=
  match t_n s with
  | O => None
  | n => let q := (t_sum s mod 2 ^ 64 / Z.of_nat n)%Z in
         Some (if (q <? 2 ^ 63)%Z then q else q - 2 ^ 64)%Z
  end.

(** clear, 70-75: nMeasurements calls of pop(); [None]: pop() of an empty queue,
    undefined behaviour. *)
Definition clear_stats (s : stats) : option stats :=
  if Nat.ltb (length (t_latest s)) (t_n s) then None
  else Some (mkStats (skipn (t_n s) (t_latest s)) (t_min s) (t_max s) (t_sum s) 0).
