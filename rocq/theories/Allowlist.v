(** The text of the allowlist file of the ControlHub, as ch_config reads it when the
    application starts, and the question get_device_access_status asks.
    controlhub/src/ch_config.erl 39-67, 77-80, 103-118, 143-188,
    controlhub/src/controlhub_app.erl 30-45,
    controlhub/src/ch_device_client_registry.erl 66-86. *)

From Coq Require Import List NArith ZArith Ascii Bool.
Import ListNotations.
Open Scope N_scope.

(** A string is a list of characters in Erlang; the file is opened without an
    encoding, so that a character is a byte.  ch_config.erl 144. *)
Definition text := list ascii.

(** The characters the code names.  ch_config.erl 150, 154, 161, 163. *)
Definition LF : ascii := ascii_of_N 10.
Definition CR : ascii := ascii_of_N 13.
Definition TAB : ascii := ascii_of_N 9.
Definition SPACE : ascii := ascii_of_N 32.
Definition HASH : ascii := ascii_of_N 35.
Definition DOT : ascii := ascii_of_N 46.
Definition COLON : ascii := ascii_of_N 58.
Definition PLUS : ascii := ascii_of_N 43.
Definition MINUS : ascii := ascii_of_N 45.

(** file:read_line until eof, ch_config.erl 148 and 186: a line ends with a line
    feed, which belongs to it, or at the end of the file; a carriage return before
    the line feed is left out.  cur is the line so far, in reverse. *)
Fixpoint lines (cur : text) (t : text) : list text :=
  match t with
  | [] => match cur with [] => [] | _ => [rev cur] end
  | c :: r =>
      if Ascii.eqb c LF then
        (rev (match cur with
              | d :: k => if Ascii.eqb d CR then k else cur
              | [] => cur
              end) ++ [LF]) :: lines [] r
      else lines (c :: cur) r
  end.

(** string:strip(_, left, C) and string:strip(_, both, C), ch_config.erl 150. *)
Fixpoint strip_left (c : ascii) (t : text) : text :=
  match t with
  | d :: r => if Ascii.eqb d c then strip_left c r else t
  | [] => []
  end.
Definition strip (c : ascii) (t : text) : text := rev (strip_left c (rev (strip_left c t))).

(** Line 150: line feeds first, then tabs, then spaces. *)
Definition trimmed (t : text) : text := strip SPACE (strip TAB (strip LF t)).

(** [0-9], ch_config.erl 161. *)
Definition is_digit (c : ascii) : bool := (48 <=? N_of_ascii c) && (N_of_ascii c <=? 57).

(** [0-9]{1,3}: the texts that can be left after it.  ch_config.erl 161. *)
Definition after_digits (t : text) : list text :=
  match t with
  | a :: r =>
      if is_digit a then
        r :: match r with
             | b :: r' =>
                 if is_digit b then
                   r' :: match r' with
                         | c :: r'' => if is_digit c then [r''] else []
                         | [] => []
                         end
                 else []
             | [] => []
             end
      else []
  | [] => []
  end.

(** "\." in an Erlang string is ".", which in a regular expression is any character
    but a line feed.  ch_config.erl 161. *)
Definition after_any (t : text) : list text :=
  match t with
  | c :: r => if Ascii.eqb c LF then [] else [r]
  | [] => []
  end.

(** The regular expression of ch_config.erl 161 at the beginning of a text: the texts
    that can be left.  Its optional last part, the port, does not matter to whether
    it matches. *)
Definition four (t : text) : list text :=
  let next l := flat_map after_digits (flat_map after_any l) in
  next (next (next (after_digits t))).

(** re:run without options: a match anywhere in the text.  ch_config.erl 161. *)
Fixpoint found (t : text) : bool :=
  match four t with
  | _ :: _ => true
  | [] => match t with [] => false | _ :: r => found r end
  end.

(** "[\.:]" is [.:] : a full stop or a colon.  ch_config.erl 163. *)
Definition is_sep (c : ascii) : bool := Ascii.eqb c DOT || Ascii.eqb c COLON.

(** re:split with empty parts kept.  ch_config.erl 163. *)
Fixpoint pieces (t : text) : list text :=
  match t with
  | [] => [[]]
  | c :: r =>
      if is_sep c then [] :: pieces r
      else match pieces r with
           | p :: ps => (c :: p) :: ps
           | [] => [[c]]
           end
  end.

(** What element(1, string:to_integer(_)) can be: an integer or the atom error.
    ch_config.erl 165-168, 172-176. *)
Inductive num := Int (z : Z) | Error.

(** The digits at the beginning of a text, added to what came before
    (string:to_integer, ch_config.erl 165-168). *)
Fixpoint digits (acc : Z) (t : text) : Z :=
  match t with
  | c :: r => if is_digit c then digits (10 * acc + Z.of_N (N_of_ascii c - 48)) r else acc
  | [] => acc
  end.

(** string:to_integer of the Erlang library: a sign may come first, at least one digit
    must follow, and what comes after the digits is given back as the rest, which
    the code drops.  ch_config.erl 165-168, 172-176. *)
Definition unsigned (t : text) : option Z :=
  match t with
  | c :: _ => if is_digit c then Some (digits 0 t) else None
  | [] => None
  end.
Definition to_integer (t : text) : num :=
  match t with
  | c :: r =>
      if Ascii.eqb c MINUS then match unsigned r with Some z => Int (- z) | None => Error end
      else if Ascii.eqb c PLUS then match unsigned r with Some z => Int z | None => Error end
      else match unsigned t with Some z => Int z | None => Error end
  | [] => Error
  end.

(** Keys and values of the dictionary, ch_config.erl 170, 178. *)
Definition key := (num * num * num * num)%type.
Inductive port := Any | Port (n : num).

(** What becomes of a line, ch_config.erl 152-184: it is skipped, stored, refused
    (nomatch), or there is no clause for the number of its pieces (an exception). *)
Inductive verdict := Skip | Store (k : key) (p : port) | Refuse | NoClause.

Definition read_line (l : text) : verdict :=
  let t := trimmed l in
  match t with
  | [] => Skip
  | c :: _ =>
      if Ascii.eqb c HASH then Skip
      else if found t then
        match pieces t with
        | [a; b; c; d] => Store (to_integer a, to_integer b, to_integer c, to_integer d) Any
        | [a; b; c; d; e] => Store (to_integer a, to_integer b, to_integer c, to_integer d) (Port (to_integer e))
        | _ => NoClause
        end
      else Refuse
  end.

(** Equality of keys and ports, ch_config.erl 108-111. *)
Definition same_num (a b : num) : bool :=
  match a, b with
  | Int x, Int y => Z.eqb x y
  | Error, Error => true
  | _, _ => false
  end.
Definition same_key (a b : key) : bool :=
  match a, b with
  | (a1, a2, a3, a4), (b1, b2, b3, b4) => same_num a1 b1 && same_num a2 b2 && same_num a3 b3 && same_num a4 b4
  end.

(** An Erlang dict, as a function: dict:new 145, dict:store 170, 178, dict:find 108. *)
Definition dict := key -> option port.

(** parse_device_allowlist/3, ch_config.erl 147-188. *)
Inductive read := Ok (d : dict) | Refused | Exception.
Fixpoint parse (ls : list text) (d : dict) : read :=
  match ls with
  | [] => Ok d
  | l :: r =>
      match read_line l with
      | Skip => parse r d
      | Store k p => parse r (fun x => if same_key x k then Some p else d x)
      | Refuse => Refused
      | NoClause => Exception
      end
  end.

(** The application after its start.  ch_config:init stores device_allowlist unless
    the file is refused; it then returns {stop, _}, which start/2 does not look at
    (controlhub_app.erl 37).  An exception ends start/2.  ch_config.erl 55-67.
    The file is given by its text; None is device_allowlist_file = none.  A file that
    cannot be opened ends start/2 too and is left out. *)
Inductive hub := NotStarted | Running (allowlist : option (option dict)).
Definition init (file : option text) : hub :=
  match file with
  | None => Running (Some None)
  | Some t =>
      match parse (lines [] t) (fun _ => None) with
      | Ok d => Running (Some (Some d))
      | Refused => Running None
      | Exception => NotStarted
      end
  end.

(** ch_utils:ipv4_u32_addr_to_tuple, ch_utils.erl 157-166: the four bytes of an address. *)
Definition tuple (ip : N) : key :=
  (Int (Z.of_N (ip / 2 ^ 24)), Int (Z.of_N (ip / 2 ^ 16 mod 256)),
   Int (Z.of_N (ip / 2 ^ 8 mod 256)), Int (Z.of_N (ip mod 256))).

(** get_device_access_status, ch_config.erl 103-118.  None: ch_config:get finds no
    value and ends in an exception (line 79), in the process that asks. *)
Definition status (allowlist : option (option dict)) (ip prt : N) : option bool :=
  match allowlist with
  | None => None
  | Some None => Some true
  | Some (Some d) =>
      match d (tuple ip) with
      | Some Any => Some true
      | Some (Port n) => Some (same_num n (Int (Z.of_N prt)))
      | None => Some false
      end
  end.

(** What get_pid makes of it for a target without a device client: the answer is
    asked for in both modes.  ch_device_client_registry.erl 71-82. *)
Inductive lookup := Granted | Blocked | Died.
Definition get_pid (a : hub) (permissive : bool) (ip prt : N) : lookup :=
  match a with
  | NotStarted => Died
  | Running al =>
      match status al ip prt with
      | None => Died
      | Some ok => if ok || permissive then Granted else Blocked
      end
  end.
