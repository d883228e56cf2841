(** C98: what the lines of an allowlist file say. *)

From Coq Require Import List NArith Ascii.
Import ListNotations.
Open Scope N_scope.

Definition chr (n : N) : ascii := ascii_of_N n.

(** The ten digits and their values. *)
Definition digit (c : ascii) (v : N) : Prop := v <= 9 /\ c = chr (48 + v).

(** A decimal number. *)
Inductive numeral : list ascii -> N -> Prop :=
| num_one c v : digit c v -> numeral [c] v
| num_more t n c v : numeral t n -> digit c v -> numeral (t ++ [c]) (10 * n + v).

(** One of the four numbers of an address: at most three digits. *)
Definition octet (t : list ascii) (n : N) : Prop := numeral t n /\ (length t <= 3)%nat.

Definition quad := (N * N * N * N)%type.
Definition dot : ascii := chr 46.
Definition colon : ascii := chr 58.

(** a.b.c.d or a.b.c.d:port *)
Inductive entry : list ascii -> quad -> option N -> Prop :=
| entry_any ta tb tc td a b c d : octet ta a -> octet tb b -> octet tc c -> octet td d ->
    entry (ta ++ dot :: tb ++ dot :: tc ++ dot :: td) (a, b, c, d) None
| entry_port ta tb tc td tp a b c d p : octet ta a -> octet tb b -> octet tc c -> octet td d -> numeral tp p ->
    entry (ta ++ dot :: tb ++ dot :: tc ++ dot :: td ++ colon :: tp) (a, b, c, d) (Some p).

Definition tabs (i : nat) : list ascii := repeat (chr 9) i.
Definition spaces (i : nat) : list ascii := repeat (chr 32) i.

(** A line, without its end: blank, a comment, or an entry.  Tabs are on the outer
    side of spaces. *)
Inductive says : list ascii -> option (quad * option N) -> Prop :=
| says_blank i j k : says (tabs i ++ spaces j ++ tabs k) None
| says_comment i j rest : ~ In (chr 10) rest -> says (tabs i ++ spaces j ++ chr 35 :: rest) None
| says_entry i j t q p k l : entry t q p -> says (tabs i ++ spaces j ++ t ++ spaces k ++ tabs l) (Some (q, p)).

(** Ends of lines: LF, or CR LF. *)
Definition line_end (t : list ascii) : Prop := t = [chr 10] \/ t = [chr 13; chr 10].

(** A file whose lines say these things; the last line may have no end. *)
Inductive file_says : list ascii -> list (option (quad * option N)) -> Prop :=
| file_none : file_says [] []
| file_last t o : says t o -> t <> [] -> file_says t [o]
| file_line t o e f os : says t o -> line_end e -> file_says f os -> file_says (t ++ e ++ f) (o :: os).

(** The entries among them. *)
Fixpoint entries (os : list (option (quad * option N))) : list (quad * option N) :=
  match os with
  | [] => []
  | Some e :: r => e :: entries r
  | None :: r => entries r
  end.

(** The 32-bit number of an address. *)
Definition number (q : quad) : N :=
  match q with (a, b, c, d) => a * 2 ^ 24 + b * 2 ^ 16 + c * 2 ^ 8 + d end.
Definition bytes4 (q : quad) : Prop :=
  match q with (a, b, c, d) => a < 256 /\ b < 256 /\ c < 256 /\ d < 256 end.

(** The last entry of the address allows the port. *)
Definition grants (es : list (quad * option N)) (q : quad) (p : N) : Prop :=
  exists before x after, es = before ++ (q, x) :: after /\ (x = None \/ x = Some p) /\
    forall e, In e after -> fst e <> q.

(** A line of an arbitrary file. *)
Definition is_line (f l : list ascii) : Prop :=
  ~ In (chr 10) l /\ exists pre post, f = pre ++ l ++ post /\
    (pre = [] \/ exists pre', pre = pre' ++ [chr 10]) /\ (post = [] \/ exists post', post = chr 10 :: post').

(** A text that begins with a number, with a sign perhaps, and holds no separator. *)
Definition begins (t : list ascii) (n : N) : Prop :=
  exists sign m junk, t = sign ++ m ++ junk /\ (sign = [] \/ sign = [chr 43] \/ (sign = [chr 45] /\ n = 0)) /\ numeral m n /\
    ~ In dot t /\ ~ In colon t.

Definition separator (c : ascii) : Prop := c = dot \/ c = colon.

(** A text of four or five such parts. *)
Inductive roughly : list ascii -> quad -> option N -> Prop :=
| roughly_any ta tb tc td a b c d s1 s2 s3 : begins ta a -> begins tb b -> begins tc c -> begins td d ->
    separator s1 -> separator s2 -> separator s3 ->
    roughly (ta ++ s1 :: tb ++ s2 :: tc ++ s3 :: td) (a, b, c, d) None
| roughly_port ta tb tc td te a b c d e s1 s2 s3 s4 :
    begins ta a -> begins tb b -> begins tc c -> begins td d -> begins te e ->
    separator s1 -> separator s2 -> separator s3 -> separator s4 ->
    roughly (ta ++ s1 :: tb ++ s2 :: tc ++ s3 :: td ++ s4 :: te) (a, b, c, d) (Some e).

(** Tabs, spaces, carriage returns. *)
Definition white (t : list ascii) : Prop := forall c, In c t -> c = chr 9 \/ c = chr 32 \/ c = chr 13.

(** A text with four numbers of at most three digits, one character between two of
    them. *)
Definition has_address (t : list ascii) : Prop :=
  exists pre ta x tb y tc z td post a b c d,
    t = pre ++ ta ++ x :: tb ++ y :: tc ++ z :: td ++ post /\
    octet ta a /\ octet tb b /\ octet tc c /\ octet td d.
