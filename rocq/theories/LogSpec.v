(** What a log ought to be: a message is written when its level is at least as severe as
    the one set last, as one line that begins with time, thread and level. *)
From Coq Require Import NArith ZArith List Bool PeanoNat Ascii String.
From Verif Require Import Log.
Import ListNotations.
Open Scope nat_scope.

(** Severity: 0 is the most severe. *)
Definition rank (l : level) : nat :=
  match l with LFatal => 0 | LError => 1 | LWarning => 2 | LNotice => 3 | LInfo => 4 | LDebug => 5 end.

(** Decimal digits. *)
Definition digit (n : Z) : ascii := ascii_of_N (Z.to_N (48 + n mod 10)).
Definition two (n : Z) : list ascii := [digit (n / 10); digit n].
Definition six (n : Z) : list ascii := [digit (n / 100000); digit (n / 10000); digit (n / 1000); digit (n / 100); digit (n / 10); digit n].
Definition four (n : Z) : list ascii := [digit (n / 1000); digit (n / 100); digit (n / 10); digit n].

(** A time as localtime gives it, from 1900 to 9999. *)
Definition civil (t : stamp) : Prop :=
  (0 <= t_year t <= 8099 /\ 0 <= t_mon t <= 11 /\ 1 <= t_mday t <= 31 /\ 0 <= t_hour t <= 23 /\ 0 <= t_min t <= 59 /\ 0 <= t_sec t <= 61)%Z /\
  (t_usec t < 1000000)%N.

Local Open Scope char_scope.
(** Day, month, year, hour, minute, second, microsecond. *)
Definition time_text (t : stamp) : list ascii :=
  two (t_mday t) ++ ["-"] ++ two (t_mon t + 1) ++ ["-"] ++ two (t_year t) ++ [" "] ++
  two (t_hour t) ++ [":"] ++ two (t_min t) ++ [":"] ++ two (t_sec t) ++ ["."] ++ six (Z.of_N (t_usec t)).
Definition default_text (t : stamp) : list ascii :=
  two (t_mday t) ++ ["/"] ++ two (t_mon t + 1) ++ ["/"] ++ four (t_year t + 1900) ++ [" "] ++
  two (t_hour t) ++ [":"] ++ two (t_min t) ++ [":"] ++ two (t_sec t).

Definition ansi (l : level) : string :=
  match l with LFatal => "31" | LError => "31" | LWarning => "33" | LNotice => "32" | LInfo => "36" | LDebug => "34" end.
Definition word (l : level) : string :=
  match l with LFatal => "FATAL" | LError => "ERROR" | LWarning => "WARNING" | LNotice => "NOTICE" | LInfo => "INFO" | LDebug => "DEBUG" end.
Definition str (s : string) : list ascii := list_ascii_of_string s.

Definition line_text (m : msg) : list ascii :=
  ["027"] ++ str "[0;" ++ str (ansi (g_level m)) ++ str "m" ++ time_text (g_stamp m) ++ str " [" ++ g_tid m ++ str "] " ++
  str (word (g_level m)) ++ str " - " ++ List.concat (g_args m) ++ ["027"] ++ str "[0m" ++ ["010"].

(** Whether a message passes: [th] is the level set last ([None]: logging is disabled). *)
Definition passes (excl : level -> bool) (th : option level) (l : level) : bool :=
  match th with
  | Some t => (rank l <=? rank t)%nat && negb (existsb (fun k => excl k && (rank k <=? rank l)%nat) levels)
  | None => false
  end.

(** The level an environment variable names, by its first letter. *)
Definition named (v : option (list ascii)) : option level :=
  match v with
  | Some (c :: _) => find (fun l => match str (word l) with w :: _ => Ascii.eqb c w || Ascii.eqb c (ascii_of_N (N_of_ascii w + 32)) | [] => false end) levels
  | _ => None
  end.

(** The messages that a thread alone writes. *)
Fixpoint expected (excl : level -> bool) (th : option level) (p : list act) : list msg :=
  match p with
  | [] => []
  | ASet l :: r => expected excl (Some l) r
  | AOff :: r => expected excl None r
  | AEnv v m :: r =>
      match named v with
      | Some l => expected excl (Some l) r
      | None => (if passes excl th LWarning then [mkM LWarning (g_stamp m) (g_tid m) (g_args m)] else []) ++ expected excl (Some LInfo) r
      end
  | ALog m :: r => (if passes excl th (g_level m) then [m] else []) ++ expected excl th r
  end.

(** The messages a program may write have proper times. *)
Definition timely (p : list act) : Prop :=
  Forall (fun a => match a with AEnv _ m | ALog m => civil (g_stamp m) | _ => True end) p.

(** From what was seen: the messages that passed, were skipped, were written, by each thread. *)
Definition passed (t : nat) (e : list lev) : list msg := flat_map (fun x => match x with EvPass u m => if Nat.eqb t u then [m] else [] | _ => [] end) e.
Definition written (t : nat) (e : list lev) : list msg := flat_map (fun x => match x with EvDone u m => if Nat.eqb t u then [m] else [] | _ => [] end) e.
Definition lines (e : list lev) : list msg := flat_map (fun x => match x with EvDone _ m => [m] | _ => [] end) e.

(** The level that a thread alone leaves set. *)
Fixpoint after (th : option level) (p : list act) : option level :=
  match p with
  | [] => th
  | ASet l :: r => after (Some l) r
  | AOff :: r => after None r
  | AEnv v _ :: r => after (Some (match named v with Some l => l | None => LInfo end)) r
  | ALog _ :: r => after th r
  end.

(** Threads that only log. *)
Definition only_logs (p : list act) : Prop := Forall (fun a => match a with ALog _ => True | _ => False end) p.
Definition logs (p : list act) : list msg := flat_map (fun a => match a with ALog m => [m] | _ => [] end) p.

(** All threads have done what they had to do. *)
Definition finished (s : logsys) : Prop := Forall (fun h => h = mkTh [] PNone) (y_ths s).
