(** Model of the XML parser through which every connection file and every
    address table goes: [pugi::xml_document::load_buffer_inplace], called by
    NodeTreeBuilder::CallBack (NodeTreeBuilder.cpp 215-222) and
    ConnectionManager::CallBack (ConnectionManager.cpp 239-247), both with the
    default options [parse_cdata | parse_escapes | parse_wconv_attribute |
    parse_eol] (pugixml.hpp 208).

    The source is /repo/uhal/uhal/src/common/pugixml.cpp, cited below as
    "pugixml.cpp" with lines.  The parser works in place: it writes zero
    bytes and decoded characters into the buffer it reads.  The model keeps
    the buffer as a list of bytes, and a pointer into it as an index.  A read
    or a write outside the buffer is the outcome [Wild]; a loop that has used
    its bound on the number of rounds is the outcome [Loop].

    Not modelled: failures of memory allocation; files recognised as UTF-16
    or UTF-32 (outcome [Other] of [load]); the code under options which are
    not set by default (comments, processing instructions, declarations and
    doctypes kept as nodes; white space kept; trimming). *)
From Coq Require Import NArith ZArith List Bool Arith.
Import ListNotations.
Open Scope N_scope.

Definition bytes := list N. (* buffers of char_t = char, pugixml.cpp 3506 (not PUGIXML_WCHAR_MODE); one number below 256 per byte *)

(** pugixml.hpp, enum xml_parse_status: the statuses the parser proper can
    return.  (File, memory and "bad pcdata" statuses do not occur in the code
    modelled.) *)
Inductive status :=
| BadPi | BadComment | BadCdata | BadDoctype | BadStart | BadAttr | BadEnd
| Mismatch | Unrecognized | NoDocument.

(** PUGI__THROW_ERROR, pugixml.cpp 2596: an error is a status and a pointer
    into the buffer; the buffer as it is at that time comes along, since the
    caller looks into it afterwards (xml.cpp 57). *)
Inductive res (A : Type) :=
| Val (a : A)
| Err (st : status) (off : nat) (b : bytes)
| Wild
| Loop.
Arguments Val {A}. Arguments Err {A}. Arguments Wild {A}. Arguments Loop {A}.

(** sequencing: the "if (!s) return s" after calls, e.g. pugixml.cpp 3403 *)
Definition bind {A B} (m : res A) (f : A -> res B) : res B :=
  match m with
  | Val a => f a
  | Err st off b => Err st off b
  | Wild => Wild
  | Loop => Loop
  end.

Notation "'do' x <- e ; f" := (bind e (fun x => f))
  (at level 200, x pattern, e at level 100, f at level 200, right associativity).

(** *s : pugixml.cpp, everywhere *)
Definition rd (b : bytes) (s : nat) : res N :=
  match nth_error b s with Some c => Val c | None => Wild end.

(** *s = v : pugixml.cpp, everywhere *)
Definition wr (b : bytes) (s : nat) (v : N) : res bytes :=
  if (s <? length b)%nat then Val (firstn s b ++ v :: skipn (S s) b) else Wild.

(** a bound on the rounds of any loop: no modelling content (XmlProofs shows
    that it is never reached) *)
Definition fuel (b : bytes) : nat := S (length b).

(** pugixml.cpp 1840-1859, chartype_table: the entries 0-127; all later
    entries are 192 *)
Definition chartype_table : list N :=
  [ 55;  0;   0;   0;   0;   0;   0;   0;      0;   12;  12;  0;   0;   63;  0;   0;
    0;   0;   0;   0;   0;   0;   0;   0;      0;   0;   0;   0;   0;   0;   0;   0;
    8;   0;   6;   0;   0;   0;   7;   6;      0;   0;   0;   0;   0;   96;  64;  0;
    64;  64;  64;  64;  64;  64;  64;  64;     64;  64;  192; 0;   1;   0;   48;  0;
    0;   192; 192; 192; 192; 192; 192; 192;    192; 192; 192; 192; 192; 192; 192; 192;
    192; 192; 192; 192; 192; 192; 192; 192;    192; 192; 192; 0;   0;   16;  0;   192;
    0;   192; 192; 192; 192; 192; 192; 192;    192; 192; 192; 192; 192; 192; 192; 192;
    192; 192; 192; 192; 192; 192; 192; 192;    192; 192; 192; 0;   0;   0;   0;   0 ].

(** pugixml.cpp 1829-1837: enum chartype_t *)
Definition ct_parse_pcdata := 1.    (* pugixml.cpp 1830 *)
Definition ct_parse_attr_ws := 4.   (* pugixml.cpp 1832 *)
Definition ct_space := 8.           (* pugixml.cpp 1833 *)
Definition ct_parse_cdata := 16.    (* pugixml.cpp 1834 *)
Definition ct_symbol := 64.         (* pugixml.cpp 1836 *)
Definition ct_start_symbol := 128.  (* pugixml.cpp 1837 *)

(** PUGI__IS_CHARTYPE, pugixml.cpp 1895-1898 *)
Definition is_type (ct : N) (c : N) : bool :=
  negb (N.land (nth (N.to_nat c) chartype_table 192) ct =? 0).

(** PUGI__ENDSWITH, pugixml.cpp 2587: the last byte of the buffer has been
    overwritten with zero, and is kept in [endch] *)
Definition endswith (endch c e : N) : bool :=
  (c =? e) || ((c =? 0) && (endch =? e)).

(** PUGI__SCANWHILE and PUGI__SCANWHILE_UNROLL, pugixml.cpp 2593-2594, and
    PUGI__SKIPWS, 2588.  (The unrolled form looks at the same characters in
    the same order.) *)
Fixpoint scan_while (n : nat) (p : N -> bool) (b : bytes) (s : nat) : res nat :=
  match n with
  | O => Loop
  | S n => do c <- rd b s; if p c then scan_while n p b (S s) else Val s
  end.

(** PUGI__SKIPWS, pugixml.cpp 2588 *)
Definition skip_ws (b : bytes) (s : nat) : res nat :=
  scan_while (fuel b) (is_type ct_space) b s.

(** PUGI__SCANFOR, pugixml.cpp 2592: up to a zero byte or a place where the
    condition [t] holds *)
Fixpoint scan_for (n : nat) (t : bytes -> nat -> res bool) (b : bytes) (s : nat) : res nat :=
  match n with
  | O => Loop
  | S n =>
      do c <- rd b s;
      if c =? 0 then Val s
      else do x <- t b s;
           if x then Val s else scan_for n t b (S s)
  end.

(** a condition "s[0] == c0 && s[1] == c1 && ..." with the short-circuit
    reading of C++: s[k+1] is only read when s[k] was as wanted *)
Fixpoint starts (l : list N) (b : bytes) (s : nat) : res bool :=
  match l with
  | [] => Val true
  | c :: l => do x <- rd b s; if x =? c then starts l b (S s) else Val false
  end.

(** "s[0] == c0 && ... && PUGI__ENDSWITH(s[k], e)", e.g. pugixml.cpp 3054 *)
Fixpoint starts_end (endch : N) (l : list N) (e : N) (b : bytes) (s : nat) : res bool :=
  match l with
  | [] => do x <- rd b s; Val (endswith endch x e)
  | c :: l => do x <- rd b s; if x =? c then starts_end endch l e b (S s) else Val false
  end.

(** struct gap, pugixml.cpp 2404-2411: the end of the gap (if there is one)
    and its size *)
Record gap := { g_end : option nat; g_size : nat }.

Definition no_gap : gap := {| g_end := None; g_size := 0 |}. (* pugixml.cpp 2409 *)

(** memmove(dst, src, n): pugixml.cpp 2421 and 2438.  Pointers below the
    beginning of the buffer show as a size greater than the end: [Wild]. *)
Definition memmove (b : bytes) (dst src n : nat) : res bytes :=
  if ((src + n <=? length b) && (dst + n <=? length b))%nat
  then Val (firstn dst b ++ firstn n (skipn src b) ++ skipn (dst + n) b)
  else Wild.

(** the collapse of the gap before [s], pugixml.cpp 2417-2422 and 2434-2438 *)
Definition collapse (b : bytes) (g : gap) (s : nat) : res bytes :=
  match g_end g with
  | None => Val b
  | Some e =>
      if ((g_size g <=? e) && (e <=? s))%nat
      then memmove b (e - g_size g) e (s - e)
      else Wild
  end.

(** gap::push, pugixml.cpp 2415-2429 *)
Definition push (b : bytes) (g : gap) (s count : nat) : res (bytes * gap * nat) :=
  do b <- collapse b g s;
  Val (b, {| g_end := Some (s + count)%nat; g_size := (g_size g + count)%nat |},
       (s + count)%nat).

(** gap::flush, pugixml.cpp 2432-2444 *)
Definition flush (b : bytes) (g : gap) (s : nat) : res (bytes * nat) :=
  do b <- collapse b g s;
  Val (b, match g_end g with None => s | Some _ => (s - g_size g)%nat end).

(** the loop of a hexadecimal character code, pugixml.cpp 2466-2479: the code
    and the place after the semicolon, or the place where it gave up *)
Fixpoint hexes (n : nat) (b : bytes) (i : nat) (u : N) : res (option N * nat) :=
  match n with
  | O => Loop
  | S n =>
      do ch <- rd b i;
      if (48 <=? ch) && (ch <=? 57) then hexes n b (S i) ((16 * u + (ch - 48)) mod 2 ^ 32)
      else if (97 <=? N.lor ch 32) && (N.lor ch 32 <=? 102)
           then hexes n b (S i) ((16 * u + (N.lor ch 32 - 97 + 10)) mod 2 ^ 32)
      else if ch =? 59 then Val (Some u, S i)
      else Val (None, i)
  end.

(** the loop of a decimal character code, pugixml.cpp 2489-2500 *)
Fixpoint decs (n : nat) (b : bytes) (i : nat) (u : N) : res (option N * nat) :=
  match n with
  | O => Loop
  | S n =>
      do ch <- rd b i;
      if (48 <=? ch) && (ch <=? 57) then decs n b (S i) ((10 * u + (ch - 48)) mod 2 ^ 32)
      else if ch =? 59 then Val (Some u, S i)
      else Val (None, i)
  end.

(** utf8_writer, pugixml.cpp 1469-1512: the bytes of a code *)
Definition utf8 (u : N) : list N :=
  if u <? 128 then [u]
  else if u <? 2048 then [N.lor 192 (u / 64); N.lor 128 (N.land u 63)]
  else if u <? 65536
       then [N.lor 224 (u / 4096); N.lor 128 (N.land (u / 64) 63); N.lor 128 (N.land u 63)]
  else [N.lor 240 (u / 262144) mod 256; N.lor 128 (N.land (u / 4096) 63);
        N.lor 128 (N.land (u / 64) 63); N.lor 128 (N.land u 63)].

(** writing several bytes from [s] on, pugixml.cpp 1478-1505 *)
Fixpoint wrs (b : bytes) (s : nat) (l : list N) : res (bytes * nat) :=
  match l with
  | [] => Val (b, s)
  | c :: l => do b <- wr b s c; wrs b (S s) l
  end.

(** "*++stre == c0 && *++stre == c1 && ...", pugixml.cpp 2520-2570: whether
    all matched, and where [stre] then is *)
Fixpoint chain (b : bytes) (i : nat) (l : list N) : res (bool * nat) :=
  match l with
  | [] => Val (true, i)
  | c :: l => do x <- rd b (S i); if x =? c then chain b (S i) l else Val (false, S i)
  end.

(** a recognised reference: its text goes to [s], and the rest of its place
    up to [stre] becomes a gap, pugixml.cpp 2503-2510 and 2522-2526 *)
Definition replaced (b : bytes) (g : gap) (s stre : nat) (l : list N)
  : res (bytes * gap * nat) :=
  do (b, s) <- wrs b s l;
  if (s <=? stre)%nat
  then do (b, g, _) <- push b g s (stre - s); Val (b, g, stre)
  else Wild.

(** a named reference, pugixml.cpp 2512-2573 *)
Definition named (b : bytes) (g : gap) (s i : nat) (l : list N) (c : N)
  : res (bytes * gap * nat) :=
  do (m, stre) <- chain b i l;
  if (m : bool) then replaced b g s (S stre) [c] else Val (b, g, stre).

(** strconv_escape, pugixml.cpp 2446-2583, with [s] at the ampersand *)
Definition escape (b : bytes) (g : gap) (s : nat) : res (bytes * gap * nat) :=
  let stre := S s in
  do c <- rd b stre;
  if c =? 35 then (* '#' *)
    do x <- rd b (S stre);
    if x =? 120 then (* 'x' *)
      do ch <- rd b (S (S stre));
      if ch =? 59 then Val (b, g, S (S stre))
      else do (u, i) <- hexes (fuel b) b (S (S stre)) 0;
           match u with
           | Some u => replaced b g s i (utf8 u)
           | None => Val (b, g, i)
           end
    else
      if x =? 59 then Val (b, g, S stre)
      else do (u, i) <- decs (fuel b) b (S stre) 0;
           match u with
           | Some u => replaced b g s i (utf8 u)
           | None => Val (b, g, i)
           end
  else if c =? 97 then (* 'a' *)
    do x <- rd b (S stre);
    if x =? 109 then named b g s (S stre) [112; 59] 38            (* &amp; *)
    else if x =? 112 then named b g s (S stre) [111; 115; 59] 39  (* &apos; *)
    else Val (b, g, S stre)
  else if c =? 103 then named b g s stre [116; 59] 62             (* &gt; *)
  else if c =? 108 then named b g s stre [116; 59] 60             (* &lt; *)
  else if c =? 113 then named b g s stre [117; 111; 116; 59] 34   (* &quot; *)
  else Val (b, g, stre).

(** strconv_attribute_impl<opt_true>::parse_wconv, pugixml.cpp 2782-2816
    (chosen by get_strconv_attribute, 2877-2901, for the default options):
    decodes an attribute value in place up to its closing quote [q]; [None]
    is the null pointer returned when the buffer ends first *)
Fixpoint attr_conv (n : nat) (b : bytes) (g : gap) (s : nat) (q : N)
  : res (option nat * bytes) :=
  match n with
  | O => Loop
  | S n =>
      do s <- scan_while (fuel b) (fun c => negb (is_type ct_parse_attr_ws c)) b s;
      do c <- rd b s;
      if c =? q then
        do (b, e) <- flush b g s; do b <- wr b e 0; Val (Some (S s), b)
      else if is_type ct_space c then
        if c =? 13 then
          do b <- wr b s 32;
          do d <- rd b (S s);
          if d =? 10 then do (b, g, s) <- push b g (S s) 1; attr_conv n b g s q
          else attr_conv n b g (S s) q
        else do b <- wr b s 32; attr_conv n b g (S s) q
      else if c =? 38 then
        do (b, g, s) <- escape b g s; attr_conv n b g s q
      else if c =? 0 then Val (None, b)
      else attr_conv n b g (S s) q
  end.

(** strconv_pcdata_impl<opt_false, opt_true, opt_true>::parse, pugixml.cpp
    2657-2706 (chosen by get_strconv_pcdata, 2708-2726): decodes a text in
    place; the place after the '<' that ends it, or of the zero byte *)
Fixpoint pcdata_conv (n : nat) (b : bytes) (g : gap) (s : nat) : res (bytes * nat) :=
  match n with
  | O => Loop
  | S n =>
      do s <- scan_while (fuel b) (fun c => negb (is_type ct_parse_pcdata c)) b s;
      do c <- rd b s;
      if c =? 60 then
        do (b, e) <- flush b g s; do b <- wr b e 0; Val (b, S s)
      else if c =? 13 then
        do b <- wr b s 10;
        do d <- rd b (S s);
        if d =? 10 then do (b, g, s) <- push b g (S s) 1; pcdata_conv n b g s
        else pcdata_conv n b g (S s)
      else if c =? 38 then
        do (b, g, s) <- escape b g s; pcdata_conv n b g s
      else if c =? 0 then
        do (b, e) <- flush b g s; do b <- wr b e 0; Val (b, s)
      else pcdata_conv n b g (S s)
  end.

(** strconv_cdata, pugixml.cpp 2627-2653; [None] is the null pointer *)
Fixpoint cdata_conv (n : nat) (endch : N) (b : bytes) (g : gap) (s : nat)
  : res (option nat * bytes) :=
  match n with
  | O => Loop
  | S n =>
      do s <- scan_while (fuel b) (fun c => negb (is_type ct_parse_cdata c)) b s;
      do c <- rd b s;
      if c =? 13 then
        do b <- wr b s 10;
        do d <- rd b (S s);
        if d =? 10 then do (b, g, s) <- push b g (S s) 1; cdata_conv n endch b g s
        else cdata_conv n endch b g (S s)
      else
        do x <- starts_end endch [93; 93] 62 b s;
        if (x : bool) then do (b, e) <- flush b g s; do b <- wr b e 0; Val (Some (S s), b)
        else if c =? 0 then Val (None, b)
        else cdata_conv n endch b g (S s)
  end.

(** parse_doctype_primitive, pugixml.cpp 2929-2960 *)
Definition doctype_primitive (b : bytes) (s : nat) : res nat :=
  do c <- rd b s;
  if (c =? 34) || (c =? 39) then
    do s <- scan_for (fuel b) (starts [c]) b (S s);
    do x <- rd b s;
    if x =? 0 then Err BadDoctype s b else Val (S s)
  else
    do pi <- starts [60; 63] b s;
    if (pi : bool) then
      do s <- scan_for (fuel b) (starts [63; 62]) b (s + 2)%nat;
      do x <- rd b s;
      if x =? 0 then Err BadDoctype s b else Val (s + 2)%nat
    else
      do co <- starts [60; 33; 45; 45] b s;
      if (co : bool) then
        do s <- scan_for (fuel b) (starts [45; 45; 62]) b (s + 4)%nat;
        do x <- rd b s;
        if x =? 0 then Err BadDoctype s b else Val (s + 3)%nat
      else Err BadDoctype s b.

(** the loop of parse_doctype_ignore, pugixml.cpp 2969-2988 *)
Fixpoint ignore_loop (n : nat) (b : bytes) (s depth : nat) : res nat :=
  match n with
  | O => Loop
  | S n =>
      do c <- rd b s;
      if c =? 0 then Err BadDoctype s b
      else
        do o <- starts [60; 33; 91] b s;
        if (o : bool) then ignore_loop n b (s + 3)%nat (S depth)
        else
          do e <- starts [93; 93; 62] b s;
          if (e : bool) then
            match depth with
            | O => Val (s + 3)%nat
            | S d => ignore_loop n b (s + 3)%nat d
            end
          else ignore_loop n b (S s) depth
  end.

(** parse_doctype_ignore, pugixml.cpp 2962-2991 *)
Definition doctype_ignore (b : bytes) (s : nat) : res nat :=
  ignore_loop (fuel b) b (s + 3)%nat 0.

(** the loop of parse_doctype_group, pugixml.cpp 3000-3036 *)
Fixpoint group_loop (n : nat) (endch : N) (b : bytes) (s depth : nat) : res nat :=
  match n with
  | O => Loop
  | S n =>
      do c <- rd b s;
      if c =? 0 then
        if negb (depth =? 0)%nat || negb (endch =? 62) then Err BadDoctype s b else Val s
      else
        do o <- starts [60; 33] b s;
        do x <- (if (o : bool) then rd b (s + 2)%nat else Val 45);
        if o && negb (x =? 45) then
          if x =? 91 then
            do s <- doctype_ignore b s; group_loop n endch b s depth
          else group_loop n endch b (s + 2)%nat (S depth)
        else if (c =? 60) || (c =? 34) || (c =? 39) then
          do s <- doctype_primitive b s; group_loop n endch b s depth
        else if c =? 62 then
          match depth with
          | O => Val s
          | S d => group_loop n endch b (S s) d
          end
        else group_loop n endch b (S s) depth
  end.

(** parse_doctype_group, pugixml.cpp 2993-3037 *)
Definition doctype_group (endch : N) (b : bytes) (s : nat) : res nat :=
  group_loop (fuel b) endch b (s + 2)%nat 0.

(** xml_node_struct and xml_attribute_struct, pugixml.cpp 1095-1133: elements
    with the places of their names, their attributes (places of names and of
    values) and their children in order; texts and CDATA with the place of
    their value *)
Inductive node :=
| Elem (name : nat) (attrs : list (nat * nat)) (kids : list node)
| Text (value : nat)
| Cdata (value : nat).

(** an element that is still open: the chain of parents of [cursor]
    (pugixml.cpp 3248) is a list of these, innermost first; the last is the
    document, which has no name *)
Record frame := { f_name : option nat; f_attrs : list (nat * nat); f_kids : list node }.

Definition root : frame := {| f_name := None; f_attrs := []; f_kids := [] |}. (* the document node, pugixml.cpp 3248 *)

(** append_new_node without moving the cursor: pugixml.cpp 3450-3454 and
    3083-3088 *)
Definition add_kid (k : node) (st : list frame) : list frame :=
  match st with
  | f :: r => {| f_name := f_name f; f_attrs := f_attrs f; f_kids := f_kids f ++ [k] |} :: r
  | [] => []
  end.

(** append_new_attribute, pugixml.cpp 3280.  (The code appends it when it has
    the name, and fills in the value later; the model appends it with its
    value.  On an error in between the document is thrown away.) *)
Definition add_attr (a : nat * nat) (st : list frame) : list frame :=
  match st with
  | f :: r => {| f_name := f_name f; f_attrs := f_attrs f ++ [a]; f_kids := f_kids f |} :: r
  | [] => []
  end.

(** PUGI__PUSHNODE(node_element) and cursor->name = s, pugixml.cpp 2590 and
    3262-3264.  (The code links the new node to its parent at once; the model
    does it when the element is closed.  An element that is never closed is
    an error, so the difference is not seen.) *)
Definition push_node (s : nat) (st : list frame) : list frame :=
  {| f_name := Some s; f_attrs := []; f_kids := [] |} :: st.

(** PUGI__POPNODE, pugixml.cpp 2591: going above the document would follow a
    null pointer *)
Definition pop_node (st : list frame) : res (list frame) :=
  match st with
  | f :: p :: r =>
      match f_name f with
      | Some nm => Val (add_kid (Elem nm (f_attrs f) (f_kids f)) (p :: r))
      | None => Wild
      end
  | _ => Wild
  end.

(** cursor->parent != 0, pugixml.cpp 3113, 3440 *)
Definition nested (st : list frame) : bool :=
  match st with _ :: _ :: _ => true | _ => false end.

(** parse_exclamation, pugixml.cpp 3039-3146, with [s] at the '!' *)
Definition exclamation (endch : N) (b : bytes) (s : nat) (st : list frame)
  : res (bytes * nat * list frame) :=
  let s := S s in
  do c <- rd b s;
  if c =? 45 then
    do d <- rd b (S s);
    if d =? 45 then
      do s <- scan_for (fuel b) (starts_end endch [45; 45] 62) b (S (S s));
      do x <- rd b s;
      if x =? 0 then Err BadComment s b
      else do y <- rd b (s + 2)%nat;
           Val (b, (s + (if (y =? 62)%N then 3 else 2))%nat, st)
    else Err BadComment (S s) b
  else if c =? 91 then
    do (m, i) <- chain b s [67; 68; 65; 84; 65; 91];
    if (m : bool) then
      let v := S i in
      let st := add_kid (Cdata v) st in
      do (o, b) <- cdata_conv (fuel b) endch b no_gap v;
      match o with
      | None => Err BadCdata v b
      | Some s => do y <- rd b (S s);
                  Val (b, (s + (if (y =? 62)%N then 2 else 1))%nat, st)
      end
    else Err BadCdata i b
  else
    do dt <- starts_end endch [68; 79; 67; 84; 89; 80] 69 b s;
    if (dt : bool) then
      let s := (s - 2)%nat in
      if nested st then Err BadDoctype s b
      else
        do s <- doctype_group endch b s;
        do x <- rd b s;
        if x =? 0 then Val (b, s, st)
        else do b <- wr b s 0; Val (b, S s, st)
    else if (c =? 0) && (endch =? 45) then Err BadComment s b
    else if (c =? 0) && (endch =? 91) then Err BadCdata s b
    else Err Unrecognized s b.

(** parse_question, pugixml.cpp 3148-3240, with the default options:
    declarations and processing instructions are skipped, 3227-3234 *)
Definition question (endch : N) (b : bytes) (s : nat) : res nat :=
  let s := S s in
  do c <- rd b s;
  if negb (is_type ct_start_symbol c) then Err BadPi s b
  else
    do s <- scan_while (fuel b) (is_type ct_symbol) b s;
    do c <- rd b s;
    if c =? 0 then Err BadPi s b
    else
      do s <- scan_for (fuel b) (starts_end endch [63] 62) b s;
      do c <- rd b s;
      if c =? 0 then Err BadPi s b
      else do y <- rd b (S s);
           Val (s + (if (y =? 62)%N then 2 else 1))%nat.

(** LOC_ATTRIBUTES, pugixml.cpp 3272-3352: the attributes of a start tag, up
    to and including its end *)
Fixpoint attributes (n : nat) (endch : N) (b : bytes) (s : nat) (st : list frame)
  : res (bytes * nat * list frame) :=
  match n with
  | O => Loop
  | S n =>
      do s <- skip_ws b s;
      do c <- rd b s;
      if is_type ct_start_symbol c then
        let nm := s in
        do s <- scan_while (fuel b) (is_type ct_symbol) b s;
        do ch <- rd b s;
        do b <- wr b s 0;
        let s := S s in
        do (ch, s) <- (if is_type ct_space ch
                        then do s <- skip_ws b s; do ch <- rd b s; Val (ch, S s)
                        else Val (ch, s));
        if ch =? 61 then
          do s <- skip_ws b s;
          do q <- rd b s;
          if (q =? 34) || (q =? 39) then
            let v := S s in
            do (o, b) <- attr_conv (fuel b) b no_gap v q;
            match o with
            | None => Err BadAttr v b
            | Some s =>
                do x <- rd b s;
                if is_type ct_start_symbol x then Err BadAttr s b
                else attributes n endch b s (add_attr (nm, v) st)
            end
          else Err BadAttr s b
        else Err BadAttr s b
      else if c =? 47 then
        let s := S s in
        do x <- rd b s;
        if x =? 62 then do st <- pop_node st; Val (b, S s, st)
        else if (x =? 0) && (endch =? 62) then do st <- pop_node st; Val (b, s, st)
        else Err BadStart s b
      else if c =? 62 then Val (b, S s, st)
      else if (c =? 0) && (endch =? 62) then Val (b, s, st)
      else Err BadStart s b
  end.

(** the comparison of the name of an end tag with that of the element,
    pugixml.cpp 3386-3389: [None] when they differ, else where both pointers
    are when the name in the end tag is over *)
Fixpoint match_name (n : nat) (b : bytes) (s name : nat) : res (option (nat * nat)) :=
  match n with
  | O => Loop
  | S n =>
      do c <- rd b s;
      if is_type ct_symbol c then
        do d <- rd b name;
        if c =? d then match_name n b (S s) (S name) else Val None
      else Val (Some (s, name))
  end.

(** an end tag, pugixml.cpp 3376-3412, with [s] after the '/' *)
Definition end_tag (endch : N) (b : bytes) (s : nat) (st : list frame)
  : res (bytes * nat * list frame) :=
  let mark := s in
  match st with
  | f :: _ =>
      match f_name f with
      | None => Err Mismatch mark b
      | Some name =>
          do o <- match_name (fuel b) b s name;
          match o with
          | None => Err Mismatch mark b
          | Some (s, name) =>
              do x <- rd b name;
              if negb (x =? 0) then
                do c <- rd b s;
                do y <- (if (c =? 0) && (x =? endch) then rd b (S name) else Val 1);
                if (c =? 0) && (x =? endch) && (y =? 0) then Err BadEnd s b
                else Err Mismatch mark b
              else
                do st <- pop_node st;
                do s <- skip_ws b s;
                do c <- rd b s;
                if c =? 0 then
                  if negb (endch =? 62) then Err BadEnd s b else Val (b, s, st)
                else if negb (c =? 62) then Err BadEnd s b
                else Val (b, S s, st)
          end
      end
  | [] => Wild
  end.

(** LOC_TAG, pugixml.cpp 3258-3416: what follows a '<' *)
Definition tag (endch : N) (b : bytes) (s : nat) (st : list frame)
  : res (bytes * nat * list frame) :=
  do c <- rd b s;
  if is_type ct_start_symbol c then
    let st := push_node s st in
    do s <- scan_while (fuel b) (is_type ct_symbol) b s;
    do ch <- rd b s;
    do b <- wr b s 0;
    if ch =? 62 then Val (b, S s, st)
    else if is_type ct_space ch then attributes (fuel b) endch b (S s) st
    else if ch =? 47 then
      do x <- rd b (S s);
      if negb (endswith endch x 62) then Err BadStart (S s) b
      else do st <- pop_node st; Val (b, (S s + (if (x =? 62)%N then 1 else 0))%nat, st)
    else if ch =? 0 then
      if negb (endch =? 62) then Err BadStart s b else Val (b, s, st)
    else Err BadStart (S s) b
  else if c =? 47 then end_tag endch b (S s) st
  else if c =? 63 then do s <- question endch b s; Val (b, s, st)
  else if c =? 33 then exclamation endch b s st
  else if (c =? 0) && (endch =? 63) then Err BadPi s b
  else Err Unrecognized s b.

(** the loop of parse_tree, pugixml.cpp 3252-3470; [in_tag] says that it is
    entered at the label LOC_TAG *)
Fixpoint tree (n : nat) (endch : N) (b : bytes) (s : nat) (st : list frame) (in_tag : bool)
  : res (bytes * nat * list frame) :=
  match n with
  | O => Loop
  | S n =>
      if in_tag then
        do (b, s, st) <- tag endch b s st; tree n endch b s st false
      else
        do c <- rd b s;
        if c =? 0 then Val (b, s, st)
        else if c =? 60 then tree n endch b (S s) st true
        else
          do s1 <- skip_ws b s;
          do c1 <- rd b s1;
          if (c1 =? 60) || (c1 =? 0) then tree n endch b s1 st false
          else if nested st then
            let st := add_kid (Text s) st in
            do (b, s) <- pcdata_conv (fuel b) b no_gap s;
            do x <- rd b s;
            if x =? 0 then Val (b, s, st) else tree n endch b s st true
          else
            do s <- scan_for (fuel b) (starts [60]) b s;
            do x <- rd b s;
            if x =? 0 then Val (b, s, st) else tree n endch b (S s) st true
  end.

(** parse_tree, pugixml.cpp 3242-3478: the children of the document *)
Definition parse_tree (endch : N) (b : bytes) (s : nat) : res (bytes * list node) :=
  do (b, s, st) <- tree (fuel b) endch b s [root] false;
  match st with
  | [f] => Val (b, f_kids f)
  | _ => Err Mismatch s b
  end.

(** parse_skip_bom, pugixml.cpp 3485-3488 *)
Definition skip_bom (b : bytes) : res nat :=
  do x <- starts [239; 187; 191] b 0%nat;
  Val (if (x : bool) then 3%nat else 0%nat).

Definition is_elem (k : node) : bool := match k with Elem _ _ _ => true | _ => false end. (* PUGI__NODETYPE(node) == node_element, pugixml.cpp 3496 *)

(** xml_parser::parse, pugixml.cpp 3505-3550 *)
Definition parse (b : bytes) : res (bytes * list node) :=
  match length b with
  | O => Err NoDocument 0 b
  | S last =>
      do endch <- rd b last;
      do b <- wr b last 0;
      do s <- skip_bom b;
      match parse_tree endch b s with
      | Val (b, kids) =>
          if endch =? 60 then Err Unrecognized last b
          else if negb (existsb is_elem kids) then Err NoDocument last b
          else Val (b, kids)
      | Err st off b =>
          Err st (if ((0 <? off) && (off =? last))%nat && (endch =? 0)
                  then (off - 1)%nat else off) b
      | Wild => Wild
      | Loop => Loop
      end
  end.

(** ** From the bytes of a file to a document *)

Inductive encoding := Utf8 | Utf16 | Utf32 | Latin1. (* pugixml.hpp 216-228, enum xml_encoding: the encodings a guess can give *)

(** PUGI__SCANCHAR for each character of a word, pugixml.cpp 1920 and
    1939-1940: what follows the word *)
Fixpoint scan_word (w l : bytes) : option bytes :=
  match w, l with
  | [], _ => Some l
  | c :: w, x :: l => if x =? c then scan_word w l else None
  | _ :: _, [] => None
  end.

(** PUGI__SCANCHARTYPE, pugixml.cpp 1921: the characters of a type, and the
    rest.  (The code keeps an offset and compares it with the size; the model
    works on the rest of the data.) *)
Fixpoint scan_types (ct : N) (l : bytes) : bytes * bytes :=
  match l with
  | x :: r => if is_type ct x then let (a, t) := scan_types ct r in (x :: a, t) else ([], l)
  | [] => ([], [])
  end.

(** the encoding field, pugixml.cpp 1936-1961 *)
Definition encoding_field (l : bytes) : option bytes :=
  match scan_word [101; 110; 99; 111; 100; 105; 110; 103] l with   (* "encoding" *)
  | None => None
  | Some l =>
      match scan_word [61] (snd (scan_types ct_space l)) with
      | None => None
      | Some l =>
          let l := snd (scan_types ct_space l) in
          let delimiter := match l with 34 :: _ => 34 | _ => 39 end in
          match scan_word [delimiter] l with
          | None => None
          | Some l =>
              let (name, l) := scan_types ct_symbol l in
              match scan_word [delimiter] l with
              | None => None
              | Some _ => Some name
              end
          end
      end
  end.

(** the search for it, pugixml.cpp 1928-1964 *)
Fixpoint find_encoding (l : bytes) : option bytes :=
  match l with
  | x :: r =>
      match r with
      | y :: _ =>
          if x =? 63 then None
          else if (x =? 101) && (y =? 110) then encoding_field l
          else find_encoding r
      | [] => None
      end
  | [] => None
  end.

(** parse_declaration_encoding, pugixml.cpp 1918-1970 *)
Definition declared_encoding (d : bytes) : option bytes :=
  match scan_word [60; 63; 120; 109; 108] d with                   (* "<?xml" *)
  | Some (c :: r) => if is_type ct_space c then find_encoding r else None
  | _ => None
  end.

(** the two names of Latin-1, pugixml.cpp 1999-2014; [true] marks the letters
    compared after "| ' '" *)
Fixpoint is_word (w : list (N * bool)) (l : bytes) : bool :=
  match w, l with
  | [], [] => true
  | (c, fold) :: w, x :: l => ((if fold : bool then N.lor x 32 else x) =? c) && is_word w l
  | _, _ => false
  end.

Definition iso_8859_1 : list (N * bool) :=   (* pugixml.cpp 2003-2006 *)
  [(105, true); (115, true); (111, true); (45, false); (56, false); (56, false);
   (53, false); (57, false); (45, false); (49, false)].

Definition latin1 : list (N * bool) :=   (* pugixml.cpp 2010-2013 *)
  [(108, true); (97, true); (116, true); (105, true); (110, true); (49, false)].

(** guess_buffer_encoding, pugixml.cpp 1972-2018 *)
Definition guess (d : bytes) : encoding :=
  match d with
  | d0 :: d1 :: d2 :: d3 :: _ =>
      if (d0 =? 0) && (d1 =? 0) && (d2 =? 254) && (d3 =? 255) then Utf32
      else if (d0 =? 255) && (d1 =? 254) && (d2 =? 0) && (d3 =? 0) then Utf32
      else if (d0 =? 254) && (d1 =? 255) then Utf16
      else if (d0 =? 255) && (d1 =? 254) then Utf16
      else if (d0 =? 239) && (d1 =? 187) && (d2 =? 191) then Utf8
      else if (d0 =? 0) && (d1 =? 0) && (d2 =? 0) && (d3 =? 60) then Utf32
      else if (d0 =? 60) && (d1 =? 0) && (d2 =? 0) && (d3 =? 0) then Utf32
      else if (d0 =? 0) && (d1 =? 60) && (d2 =? 0) && (d3 =? 63) then Utf16
      else if (d0 =? 60) && (d1 =? 0) && (d2 =? 63) && (d3 =? 0) then Utf16
      else if (d0 =? 0) && (d1 =? 60) then Utf16
      else if (d0 =? 60) && (d1 =? 0) then Utf16
      else if (d0 =? 60) && (d1 =? 63) && (d2 =? 120) && (d3 =? 109) then
        match declared_encoding d with
        | Some name => if is_word iso_8859_1 name || is_word latin1 name then Latin1 else Utf8
        | None => Utf8
        end
      else Utf8
  | _ => Utf8
  end.

(** what becomes of a file: parsed where it is; parsed in a converted copy;
    or not modelled *)
Inductive loaded :=
| InPlace (r : res (bytes * list node))
| Copied (r : res (bytes * list node))
| Other.

(** load_buffer_inplace and load_buffer_impl, pugixml.cpp 7142-7147 and
    4691-4723; convert_buffer 2245-2277, convert_buffer_latin1 2208-2243
    (which leaves a file of seven-bit bytes where it is) *)
Definition load (file : bytes) : loaded :=
  match guess file with
  | Utf8 => InPlace (parse file)
  | Latin1 =>
      if forallb (fun c => c <? 128) file then InPlace (parse file)
      else Copied (parse (flat_map utf8 file ++ [0]))
  | _ => Other
  end.

(** xml_node::name, xml_attribute::name and value: the zero-terminated string
    at a place, pugixml.cpp 5217-5225 and 5482-5495 *)
Fixpoint upto0 (l : bytes) : bytes :=
  match l with
  | c :: r => if c =? 0 then [] else c :: upto0 r
  | [] => []
  end.

Definition cstr (b : bytes) (i : nat) : bytes := upto0 (skipn i b). (* pugixml.cpp 5219, 5224, 5484, 5494 *)

(** the document as the callers of the library see it *)
Inductive xml :=
| El (name : bytes) (attrs : list (bytes * bytes)) (kids : list xml)
| Tx (value : bytes)
| Cd (value : bytes).

(** pugixml.cpp 5217-5225 and 5482-5495 applied to a whole tree *)
Fixpoint shown (b : bytes) (k : node) : xml :=
  match k with
  | Elem name attrs kids =>
      El (cstr b name) (map (fun a => (cstr b (fst a), cstr b (snd a))) attrs)
         (map (shown b) kids)
  | Text v => Tx (cstr b v)
  | Cdata v => Cd (cstr b v)
  end.

(** ** The report about a file that does not parse *)

(** what PugiXMLParseResultPrettifier does: a report in the log; an exception
    of class std::length_error; or a use of memory outside the file *)
Inductive report :=
| Report (line : N) (character : N) (text : bytes) (before after : N)
| LengthError
| WildRead.

(** xml.cpp 73-80: the second loop, backwards to the beginning of the line *)
Fixpoint back (file : bytes) (i : nat) : option nat :=
  match i with
  | O => Some O
  | S j => match nth_error file i with
           | None => None
           | Some c => if c =? 10 then Some (S i) else back file j
           end
  end.

(** xml.cpp 82-89: the third loop, forwards to the end of the line; [l] is
    what follows [i].  ("--lIt2" at the beginning of the file gives a place
    before it: hence the integer.) *)
Fixpoint forth (l : bytes) (i : nat) : Z :=
  match l with
  | [] => Z.of_nat i
  | c :: l => if c =? 10 then (Z.of_nat i - 1)%Z else forth l (S i)
  end.

(** xml.cpp 96-106: the characters of the line.  isprint as in the "C" locale. *)
Definition visible (c : N) : N :=
  if ((32 <=? c) && (c <=? 126)) || (c =? 10) then c else 35.

(** PugiXMLParseResultPrettifier, xml.cpp 57-112, for a file with the given
    present contents, and the offset given by the parser.  [reserve] (line
    94) of a difference below zero, taken as std::size_t, throws. *)
Definition prettify (file : bytes) (off : nat) : report :=
  if (length file <? off)%nat then WildRead
  else
    let line := 1 + N.of_nat (count_occ N.eq_dec (firstn off file) 10) in
    match back file off with
    | None => WildRead
    | Some i1 =>
        let i2 := forth (skipn off file) off in
        if (i2 - Z.of_nat i1 <? 0)%Z then LengthError
        else
          let text := firstn (Z.to_nat (i2 - Z.of_nat i1)) (skipn i1 file) in
          Report line (N.of_nat (off - i1) + 1) (map visible text)
                 (N.of_nat (off - i1)) (Z.to_N (i2 - Z.of_nat off))
    end.

(** NodeTreeBuilder.cpp 215-222 and ConnectionManager.cpp 239-247: a file
    that does not parse is reported, and otherwise ignored *)
Inductive opened :=
| Document (kids : list xml)
| Reported (st : status) (r : report)
| Crashed
| Hung
| NotModelled.

(** NodeTreeBuilder.cpp 215-222, ConnectionManager.cpp 239-247.  Parsed in
    place, the file is looked at as the parser left it; parsed in a copy, as
    it was. *)
Definition open_xml (file : bytes) : opened :=
  match load file with
  | InPlace (Val (b, kids)) | Copied (Val (b, kids)) => Document (map (shown b) kids)
  | InPlace (Err st off b) => Reported st (prettify b off)
  | Copied (Err st off _) => Reported st (prettify file off)
  | InPlace Wild | Copied Wild => Crashed
  | InPlace Loop | Copied Loop => Hung
  | Other => NotModelled
  end.
