(** What opening a file means. *)
From Coq Require Import NArith ZArith List Bool.
Import ListNotations.
Open Scope N_scope.

Definition text := list N.
Definition white (c : N) : Prop := 9 <= c <= 13 \/ c = 32.
Definition digit (c : N) : Prop := 48 <= c <= 57.
Definition eol : text := [13; 10].

(** Some bytes without the white space that they begin with. *)
Definition stripped (b c : text) : Prop := exists w, b = w ++ c /\ Forall white w /\ match c with x :: _ => ~ white x | [] => True end.

(** A line of a reply: not empty, no carriage return, begins with no white space. *)
Definition line (l : text) : Prop := Forall (fun c => c <> 13) l /\ match l with c :: _ => ~ white c | [] => False end.
Definition lines (l : list text) : text := concat (map (fun h => h ++ eol) l).

(** A reply of a web server (RFC 1945, section 6; the first line, headers, an empty line, the
    body). *)
Definition reply (major minor code reason : text) (headers : list text) (body : text) : text :=
  [72; 84; 84; 80; 47] ++ major ++ [46] ++ minor ++ [32] ++ code ++ [32] ++ reason ++ eol ++ lines headers ++ eol ++ body.
Definition number (l : text) : Prop := l <> [] /\ Forall digit l.

(** A URL host/path. *)
Definition plain (l : text) : Prop := Forall (fun c => ~ white c) l.
Definition host_ok (h : text) : Prop := h <> [] /\ plain h /\ Forall (fun c => c <> 47) h.
Definition ask (host path : text) : text :=
  [71; 69; 84; 32; 47] ++ path ++ [32; 72; 84; 84; 80; 47; 49; 46; 48] ++ eol ++
  [72; 111; 115; 116; 58; 32] ++ host ++ eol ++ [65; 99; 99; 101; 112; 116; 58; 32; 42; 47; 42] ++ eol ++
  [67; 111; 110; 110; 101; 99; 116; 105; 111; 110; 58; 32; 99; 108; 111; 115; 101] ++ eol ++ eol.

Definition suffix (s l : text) : Prop := exists a, l = a ++ s.

(** the file a name stands for in a directory: a name that begins with '/' stands for itself *)
Inductive located (parent : text) : text -> text -> Prop :=
| L_absolute r : located parent (47 :: r) (47 :: r)
| L_relative w : (forall r, w <> 47 :: r) -> located parent w (parent ++ [47] ++ w).
