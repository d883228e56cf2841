(** Messages in the log: uhal/log/src/common/log.cpp, LogLevels.cpp,
    log_inserters.time.cpp, and log.hxx, log_inserters.time.hxx of uhal/log/include/uhal/log.

    Simplifications: reading or writing one of the flags of log_configuration is one
    step, although the flags are plain bools; all levels write to std::cout, as the objects Fatal to
    Debug of LogLevels.cpp do; putting an argument into the stream does not throw; what time it is and
    the text of the thread's id come with a message. *)
From Coq Require Import NArith ZArith List Bool PeanoNat Ascii String.
Import ListNotations.
Open Scope nat_scope.

(** The levels, LogLevels.hpp 84-169, and their order in log.cpp. *)
Inductive level := LFatal | LError | LWarning | LNotice | LInfo | LDebug.
Definition levels : list level := [LFatal; LError; LWarning; LNotice; LInfo; LDebug].
Definition level_eqb (a b : level) : bool :=
  match a, b with
  | LFatal, LFatal | LError, LError | LWarning, LWarning | LNotice, LNotice | LInfo, LInfo | LDebug, LDebug => true
  | _, _ => false
  end.

(** log_configuration::mLoggingIncludes..., log.cpp 267-272. *)
Definition flags := level -> bool.
Definition flags0 : flags := fun l => match l with LDebug => false | _ => true end.
Definition put_flag (f : flags) (w : level * bool) : flags := fun l => if level_eqb l (fst w) then snd w else f l.

Section Log.
(** LOGGING_EXCLUDE_FATAL to LOGGING_EXCLUDE_DEBUG, given at compile time. *)
Variable excl : level -> bool.

(** The assignments of setLogLevelTo, log.cpp 87-97, 107-119, 131-145, 159-175,
    191-209, 227-247: up to [l] the flags are set, those behind are cleared; an excluded level ends it. *)
Fixpoint set_writes (ls : list level) (l : level) : list (level * bool) :=
  match ls with
  | [] => []
  | m :: r =>
      if excl m then []
      else (m, true) :: (if level_eqb m l then map (fun k => (k, false)) r else set_writes r l)
  end.

(** disableLogging, log.cpp 64-72. *)
Definition off_writes : list (level * bool) := map (fun k => (k, false)) levels.

(** LoggingIncludes, log.cpp 99-265; log itself (log.hxx 17-6662) has the same #ifndefs. *)
Fixpoint included (ls : list level) (f : flags) (l : level) : bool :=
  match ls with
  | [] => false
  | m :: r => if excl m then false else if level_eqb m l then f l else included r f l
  end.
Definition includes (f : flags) (l : level) : bool := included levels f l.

(** setLogLevelFromEnvironment, log.cpp 16-58: the level, and whether a warning is logged
    first; [v] is what getenv gives. *)
Definition from_env (v : option (list ascii)) : level * bool :=
  match v with
  | None => (LInfo, true)
  | Some s =>
      match s with
      | "f" :: _ | "F" :: _ => (LFatal, false)
      | "e" :: _ | "E" :: _ => (LError, false)
      | "w" :: _ | "W" :: _ => (LWarning, false)
      | "n" :: _ | "N" :: _ => (LNotice, false)
      | "i" :: _ | "I" :: _ => (LInfo, false)
      | "d" :: _ | "D" :: _ => (LDebug, false)
      | _ => (LInfo, true)
      end%char
  end.

(** What is done to a std::ostream: formatted output (operator<<), unformatted output
    (write), setfill, setw. *)
Inductive op := Fmt (s : list ascii) | Raw (s : list ascii) | Fill (c : ascii) | Width (n : nat).

(** A stream: what was written, fill character, width. *)
Record ost := mkO { os_text : list ascii; os_fill : ascii; os_width : nat }.
Definition put (o : ost) (x : op) : ost :=
  match x with
  | Fmt s => mkO (os_text o ++ repeat (os_fill o) (os_width o - List.length s) ++ s) (os_fill o) 0
  | Raw s => mkO (os_text o ++ s) (os_fill o) (os_width o)
  | Fill c => mkO (os_text o) c (os_width o)
  | Width n => mkO (os_text o) (os_fill o) n
  end.
Definition put_all (o : ost) (l : list op) : ost := fold_left put l o.

(** struct tm, as far as it is used, and the microseconds. *)
Record stamp := mkS { t_year : Z; t_mon : Z; t_mday : Z; t_hour : Z; t_min : Z; t_sec : Z; t_usec : N }.

(** [n] characters at [k] of a character array; [None] outside. *)
Definition chars (tbl : string) (k : Z) (n : nat) : option op :=
  let l := list_ascii_of_string tbl in
  if (0 <=? k)%Z && (k + Z.of_nat n <=? Z.of_nat (List.length l))%Z
  then Some (Raw (firstn n (skipn (Z.to_nat k) l)))
  else None.

(** The tables of log_inserters.time.cpp: of lines 57-66, 75, 84, 93-96, 105-107, 116-121, 130-136. *)
Definition tab_yr : string := "00010203040506070809101112131415161718192021222324252627282930313233343536373839404142434445464748495051525354555657585960616263646566676869707172737475767778798081828384858687888990919293949596979899"%string.
Definition tab_strmth : string := "Jan Feb Mar Apr May Jun Jul Aug Sep Oct Nov Dec"%string.
Definition tab_mth : string := "010203040506070809101112"%string.
Definition tab_day : string := "xx01020304050607080910111213141516171819202122232425262728293031"%string.
Definition tab_hr : string := "000102030405060708091011121314151617181920212223"%string.
Definition tab_min : string := "000102030405060708091011121314151617181920212223242526272829303132333435363738394041424344454647484950515253545556575859"%string.
Definition tab_sec : string := "0001020304050607080910111213141516171819202122232425262728293031323334353637383940414243444546474849505152535455565758596061"%string.

(** operator<< for unsigned numbers, of the standard library. *)
Fixpoint decimal (fuel : nat) (n : N) : list ascii :=
  match fuel with
  | O => []
  | S f => (if N.ltb n 10 then [] else decimal f (n / 10)) ++ [ascii_of_N (48 + n mod 10)]
  end.

(** The elements of a time: log_inserters.time.hpp 54-66 (without null), print in
    log_inserters.time.cpp 46-145; [None]: outside a table.  tm_year%100 rounds towards zero. *)
Inductive elem := EYear | EYr | EStrMth | EMth | EDay | EHr | EMin | ESec | EUsec.
Definition print_elem (e : elem) (t : stamp) : option (list op) :=
  let one x := match x with Some o => Some [o] | None => None end in
  match e with
  | EYear =>
      let y := (t_year t + 1900)%Z in
      Some [Fmt ((if (y <? 0)%Z then ["-"%char] else []) ++ decimal 20 (Z.abs_N y))]
  | EYr => one (chars tab_yr (2 * Z.rem (t_year t) 100) 2)
  | EStrMth => one (chars tab_strmth (4 * t_mon t) 3)
  | EMth => one (chars tab_mth (2 * t_mon t) 2)
  | EDay => one (chars tab_day (2 * t_mday t) 2)
  | EHr => one (chars tab_hr (2 * t_hour t) 2)
  | EMin => one (chars tab_min (2 * t_min t) 2)
  | ESec => one (chars tab_sec (2 * t_sec t) 2)
  | EUsec => Some [Fill "0"%char; Width 6; Fmt (decimal 20 (t_usec t))]
  end.

(** operator<< for times, log_inserters.time.hxx 117-235: the elements, each but the last
    followed by a character. *)
Fixpoint print_time (fmt : list (elem * option ascii)) (t : stamp) : option (list op) :=
  match fmt with
  | [] => Some []
  | (e, d) :: r =>
      match print_elem e t, print_time r t with
      | Some a, Some b => Some (a ++ match d with Some c => [Fmt [c]] | None => [] end ++ b)
      | _, _ => None
      end
  end.
(** The format of the messages, LogLevels.cpp 33, and DefaultTimeFmt, log_inserters.time.hpp 78. *)
Definition head_fmt : list (elem * option ascii) :=
  [(EDay, Some "-"); (EMth, Some "-"); (EYr, Some " "); (EHr, Some ":"); (EMin, Some ":"); (ESec, Some "."); (EUsec, None)]%char.
Definition default_fmt : list (elem * option ascii) :=
  [(EDay, Some "/"); (EMth, Some "/"); (EYear, Some " "); (EHr, Some ":"); (EMin, Some ":"); (ESec, None)]%char.

(** colour_head and colour_tail, LogLevels.cpp 30-136: colour and name of a level. *)
Definition esc : list ascii := ["027"%char].
Definition colour (l : level) : string :=
  match l with
  | LFatal | LError => "[0;31m" | LWarning => "[0;33m" | LNotice => "[0;32m" | LInfo => "[0;36m" | LDebug => "[0;34m"
  end.
Definition name (l : level) : string :=
  match l with
  | LFatal => " FATAL - " | LError => " ERROR - " | LWarning => " WARNING - " | LNotice => " NOTICE - "
  | LInfo => " INFO - " | LDebug => " DEBUG - "
  end.

(** A message: level, time, text of the thread id, arguments. *)
Record msg := mkM { g_level : level; g_stamp : stamp; g_tid : list ascii; g_args : list (list ascii) }.

(** What log does to the stream once it has the mutex: log.hxx 22-26. *)
Definition line (m : msg) : option (list op) :=
  match print_time head_fmt (g_stamp m) with
  | Some t =>
      Some (Fmt (esc ++ list_ascii_of_string (colour (g_level m))) :: t ++
            [Fmt (list_ascii_of_string " ["); Fmt (g_tid m); Fmt (list_ascii_of_string "]");
             Fmt (list_ascii_of_string (name (g_level m)))] ++
            map Fmt (g_args m) ++ [Fmt (esc ++ list_ascii_of_string "[0m"); Raw ["010"%char]])
  | None => None
  end.

(** What a thread does: setLogLevelTo, disableLogging, setLogLevelFromEnvironment (with
    what getenv gives, and the message that may be logged), log. *)
Inductive act := ASet (l : level) | AOff | AEnv (v : option (list ascii)) (m : msg) | ALog (m : msg).

(** Where a thread is in such a call: in none; the flags still to be written; waiting for the mutex; with the
    mutex, the operations on the stream still to be done. *)
Inductive place := PNone | PWrites (ws : list (level * bool)) | PWant (m : msg) | PHold (m : msg) (todo : list op).
Record thread := mkTh { h_acts : list act; h_place : place }.

(** Everything: flags, who has the mutex, what was done to std::cout, the threads. *)
Record logsys := mkL { y_flags : flags; y_mutex : option nat; y_out : list op; y_ths : list thread }.

(** Seen from outside: a message passed the test of its level; a message was written. *)
Inductive lev := EvPass (t : nat) (m : msg) | EvSkip (t : nat) (m : msg) | EvDone (t : nat) (m : msg).

Definition put_th (l : list thread) (i : nat) (x : thread) : list thread := firstn i l ++ x :: skipn (S i) l.

(** One step of the [i]-th thread; [None]: it cannot go on; a time outside the tables is
    not possible here ([line] tells of it). *)
Definition lstep (s : logsys) (i : nat) : option (logsys * list lev) :=
  match nth_error (y_ths s) i with
  | None => None
  | Some (mkTh acts pl) =>
      let go f mu o th ev := Some (mkL f mu o (put_th (y_ths s) i th), ev) in
      match pl with
      | PNone =>
          match acts with
          | [] => None
          | ASet l :: r => go (y_flags s) (y_mutex s) (y_out s) (mkTh r (PWrites (set_writes levels l))) []
          | AOff :: r => go (y_flags s) (y_mutex s) (y_out s) (mkTh r (PWrites off_writes)) []
          | AEnv v m :: r =>
              let (l, warn) := from_env v in
              go (y_flags s) (y_mutex s) (y_out s)
                 (mkTh ((if warn : bool then [ALog (mkM LWarning (g_stamp m) (g_tid m) (g_args m))] else []) ++ ASet l :: r) PNone) []
          | ALog m :: r =>
              if includes (y_flags s) (g_level m)
              then go (y_flags s) (y_mutex s) (y_out s) (mkTh r (PWant m)) [EvPass i m]
              else go (y_flags s) (y_mutex s) (y_out s) (mkTh r PNone) [EvSkip i m]
          end
      | PWrites [] => go (y_flags s) (y_mutex s) (y_out s) (mkTh acts PNone) []
      | PWrites (w :: ws) => go (put_flag (y_flags s) w) (y_mutex s) (y_out s) (mkTh acts (PWrites ws)) []
      | PWant m =>
          match y_mutex s, line m with
          | None, Some l => go (y_flags s) (Some i) (y_out s) (mkTh acts (PHold m l)) []
          | _, _ => None
          end
      | PHold m (x :: r) => go (y_flags s) (y_mutex s) (y_out s ++ [x]) (mkTh acts (PHold m r)) []
      | PHold m [] => go (y_flags s) None (y_out s) (mkTh acts PNone) [EvDone i m]
      end
  end.

Fixpoint lrun (s : logsys) (is : list nat) : option (logsys * list lev) :=
  match is with
  | [] => Some (s, [])
  | i :: t =>
      match lstep s i with
      | Some (s', e) => match lrun s' t with Some (s'', e') => Some (s'', e ++ e') | None => None end
      | None => None
      end
  end.

(** Threads that do [ps]. *)
Definition log_start (ps : list (list act)) : logsys := mkL flags0 None [] (map (fun a => mkTh a PNone) ps).
End Log.
