(** The report file of overlapping nodes.

    Sources: /repo/uhal/uhal/src/common/detail/utilities.cpp 169-230,
    NodeTreeBuilder.cpp 634-687.

    Simplifications (all of the model): of the flags of a stream only the base; a text
    is a list of characters; what the file system does is given by [env]. *)
From Coq Require Import NArith List Bool String Ascii.
From Verif Require Import Word NodeTree Overlap.
From Verif Require Describe.
Import ListNotations.
Open Scope N_scope.

(** Texts; std::string.  NodeTreeBuilder.cpp 642-677. *)
Definition text := list ascii.
(** A string literal of the code.  utilities.cpp 175-216. *)
Definition lit (s : string) : text := list_ascii_of_string s.
(** std::endl, utilities.cpp 206 and 215-217.  Simplified: as formatted output, which
    makes no difference as the width is zero. *)
Definition newline : text := [ascii_of_nat 10].

(** ** The stream *)

(** A std::ostream: base (hexadecimal or not), fill character, width, and what was
    written.  flags(), fill() and setw, utilities.cpp 171-193. *)
Record stream := { s_hex : bool; s_fill : ascii; s_width : nat; s_out : text }.

(** The digits, without std::uppercase.  operator<< for uint32_t, utilities.cpp 177-189. *)
Definition digit_char (d : N) : ascii := nth (N.to_nat d) (lit "0123456789abcdef") "?"%char.
(** Digits in a base, no leading zeros; [fuel]: not in the code, digits at most.
    operator<< for uint32_t, utilities.cpp 177-189. *)
Fixpoint digits (fuel : nat) (base n : N) : text :=
  match fuel with
  | O => []
  | S f => (if n <? base then [] else digits f base (n / base)) ++ [digit_char (n mod base)]
  end.

(** Formatted output: filled from the left to the width, which is then zero.
    utilities.cpp 175-190. *)
Definition put (s : stream) (x : text) : stream :=
  {| s_hex := s_hex s; s_fill := s_fill s; s_width := 0;
     s_out := s_out s ++ repeat (s_fill s) (s_width s - List.length x) ++ x |}.
(** operator<< for uint32_t, utilities.cpp 177-189. *)
Definition put_u32 (s : stream) (n : N) : stream := put s (digits 10 (if s_hex s then 16 else 10) n).
(** std::setw, utilities.cpp 177-189. *)
Definition setw (n : nat) (s : stream) : stream := {| s_hex := s_hex s; s_fill := s_fill s; s_width := n; s_out := s_out s |}.
(** std::hex and flags(), utilities.cpp 173 and 192. *)
Definition set_hex (h : bool) (s : stream) : stream := {| s_hex := h; s_fill := s_fill s; s_width := s_width s; s_out := s_out s |}.
(** std::setfill and fill(), utilities.cpp 172, 193 and 201. *)
Definition set_fill (c : ascii) (s : stream) : stream := {| s_hex := s_hex s; s_fill := c; s_width := s_width s; s_out := s_out s |}.

(** ** A line *)

(** What is between the brackets for a node, given the other one.  utilities.cpp
    176-181 and 184-189; the last address in uint32_t arithmetic. *)
Definition put_place (a other : attrs) (s : stream) : stream :=
  if mode_eqb (a_mode a) INCREMENTAL then
    let s := put_u32 (setw 8 (put s (lit "addresses 0x"))) (a_addr a) in
    put_u32 (setw 8 (put s (lit " - 0x"))) (sub32 (add32 (a_addr a) (a_size a)) 1)
  else if mode_eqb (a_mode other) INCREMENTAL then
    put_u32 (setw 8 (put s (lit "address 0x"))) (a_addr a)
  else
    let s := put_u32 (setw 8 (put s (lit "address 0x"))) (a_addr a) in
    put_u32 (setw 8 (put s (lit ", mask 0x"))) (a_mask a).

(** printNodeOverlapDescription, utilities.cpp 169-194, of the nodes at two positions. *)
Definition describe (t : node) (s0 : stream) (p q : list nat) : stream :=
  let a := at_pos t p in
  let b := at_pos t q in
  let s := set_hex true (set_fill "0" s0) in
  let s := put (put (put s (lit "Node '")) (lit (Describe.path_at t p))) (lit "' [") in
  let s := put_place a b s in
  let s := put (put (put s (lit "] overlaps with '")) (lit (Describe.path_at t q))) (lit "' [") in
  let s := put_place b a s in
  let s := put s (lit "].") in
  set_fill (s_fill s0) (set_hex (s_hex s0) s).

(** The main contents, utilities.cpp 199-207. *)
Definition body (t : node) : text :=
  s_out (fold_left (fun s pq => put (describe t s (fst pq) (snd pq)) newline) (overlaps t)
                   {| s_hex := true; s_fill := "0"; s_width := 0; s_out := [] |}).

(** ** The file *)

(** What becomes of is_directory and create_directories, with the permissions of a new
    directory: there is one now; it was not made; filesystem_error.
    NodeTreeBuilder.cpp 652-671. *)
Inductive directory := DirThere | DirNotMade | DirThrows.

(** The surroundings.  USER, NodeTreeBuilder.cpp 643; the directory, 652-671;
    is_regular_file of the report's path, [None]: filesystem_error, utilities.cpp 210;
    whether the file can be opened, 211-213; how many characters get written before
    the disk is full, if it gets full, 215-219; whether permissions() returns, 221-224;
    the time, 216. *)
Record env := { e_user : option text; e_dir : directory; e_regular : option bool; e_opens : bool;
                e_room : option nat; e_chmod : bool; e_time : text }.

(** The messages of the log, NodeTreeBuilder.cpp 661, 669, 679, 683, and the files
    named in them. *)
Inductive message := NoDirectory (dir : text) | Written (file : text) | NotCreated (file : text).

(** What was done: the file written, with its contents; the messages; whether an
    exception leaves the function.  NodeTreeBuilder.cpp 634-687. *)
Record outcome := { o_file : option (text * text); o_log : list message; o_throws : bool }.

(** lDirName, NodeTreeBuilder.cpp 642-647. *)
Definition dir_name (e : env) : text :=
  lit "/tmp" ++ match e_user e with Some u => lit "/" ++ u | None => [] end ++ lit "/uhal".

(** boost::replace_all, NodeTreeBuilder.cpp 674. *)
Definition no_slash (p : text) : text := map (fun c => if Ascii.eqb c "/" then "-"%char else c) p.

(** lReportPath, NodeTreeBuilder.cpp 673-675. *)
Definition report_path (e : env) (p : text) : text := dir_name e ++ lit "/" ++ lit "OverlapReport" ++ no_slash p ++ lit ".txt".

(** What is sent to the file, utilities.cpp 215-218; the header is from
    NodeTreeBuilder.cpp 677. *)
Definition contents (e : env) (t : node) (p : text) : text :=
  lit "Overlap report for """ ++ p ++ lit """." ++ newline ++ lit "Written at " ++ e_time e ++ lit "." ++ newline ++ newline ++ body t.

(** checkForAddressCollisions, NodeTreeBuilder.cpp 634-687, with writeNodeOverlapReport,
    utilities.cpp 197-230. *)
Definition check (e : env) (t : node) (p : text) : outcome :=
  match overlaps t with
  | [] => {| o_file := None; o_log := []; o_throws := false |}
  | _ :: _ =>
      match e_dir e with
      | DirNotMade | DirThrows => {| o_file := None; o_log := [NoDirectory (dir_name e)]; o_throws := false |}
      | DirThere =>
          let f := report_path e p in
          match e_regular e with
          | None => {| o_file := None; o_log := []; o_throws := true |}
          | Some old =>
              if e_opens e then
                let c := match e_room e with Some n => firstn n (contents e t p) | None => contents e t p end in
                if negb old && negb (e_chmod e) then {| o_file := Some (f, c); o_log := []; o_throws := true |}
                else {| o_file := Some (f, c); o_log := [Written f]; o_throws := false |}
              else {| o_file := None; o_log := [NotCreated f]; o_throws := false |}
          end
      end
  end.
