(** What it is to be a well-formed XML file, and which document it stands
    for: a small grammar, written after the XML recommendation and not after
    the parser.  Left out: entities other than the five predefined ones, and
    encodings other than UTF-8.  Also: what a report about an error should say. *)
From Coq Require Import NArith List Bool.
From Verif Require Import Xml.
Import ListNotations.
Open Scope N_scope.

(** white space *)
Definition space (c : N) : Prop := c = 32 \/ c = 9 \/ c = 10 \/ c = 13.
Definition spaces (w : bytes) : Prop := Forall space w.

(** names *)
Definition name_start (c : N) : Prop :=
  65 <= c <= 90 \/ 97 <= c <= 122 \/ c = 95 \/ c = 58 \/ 128 <= c.
Definition name_char (c : N) : Prop :=
  name_start c \/ 48 <= c <= 57 \/ c = 45 \/ c = 46.
Definition is_name (w : bytes) : Prop :=
  exists c r, w = c :: r /\ name_start c /\ Forall name_char r.

(** UTF-8 *)
Definition utf8_of (v : N) : bytes :=
  if v <? 128 then [v]
  else if v <? 2048 then [192 + v / 64; 128 + v mod 64]
  else if v <? 65536 then [224 + v / 4096; 128 + (v / 64) mod 64; 128 + v mod 64]
  else [240 + v / 262144; 128 + (v / 4096) mod 64; 128 + (v / 64) mod 64; 128 + v mod 64].

(** digits and the numbers they write *)
Inductive decimal : bytes -> N -> Prop :=
| decimal_one d : d < 10 -> decimal [48 + d] d
| decimal_more w v d : decimal w v -> d < 10 -> decimal (w ++ [48 + d]) (10 * v + d).

Inductive hex_digit : N -> N -> Prop :=
| hex_digit_09 d : d < 10 -> hex_digit (48 + d) d
| hex_digit_AF d : d < 6 -> hex_digit (65 + d) (10 + d)
| hex_digit_af d : d < 6 -> hex_digit (97 + d) (10 + d).

Inductive hexadecimal : bytes -> N -> Prop :=
| hexadecimal_one c d : hex_digit c d -> hexadecimal [c] d
| hexadecimal_more w v c d : hexadecimal w v -> hex_digit c d -> hexadecimal (w ++ [c]) (16 * v + d).

(** references, and the text each stands for *)
Inductive reference : bytes -> bytes -> Prop :=
| ref_amp : reference [38] [38; 97; 109; 112; 59]          (* &amp; *)
| ref_apos : reference [39] [38; 97; 112; 111; 115; 59]    (* &apos; *)
| ref_gt : reference [62] [38; 103; 116; 59]               (* &gt; *)
| ref_lt : reference [60] [38; 108; 116; 59]               (* &lt; *)
| ref_quot : reference [34] [38; 113; 117; 111; 116; 59]   (* &quot; *)
| ref_dec w v : decimal w v -> 0 < v <= 1114111 ->
    reference (utf8_of v) ([38; 35] ++ w ++ [59])          (* &#...; *)
| ref_hex w v : hexadecimal w v -> 0 < v <= 1114111 ->
    reference (utf8_of v) ([38; 35; 120] ++ w ++ [59]).    (* &#x...; *)

(** the value of an attribute between quotes [q]: white space counts as
    spaces, and a carriage return with a line feed as one *)
Inductive attr_text (q : N) : bytes -> bytes -> Prop :=
| at_end : attr_text q [] []
| at_char c v w : c <> 0 -> c <> 38 -> c <> 60 -> c <> q -> ~ (c = 9 \/ c = 10 \/ c = 13) ->
    attr_text q v w -> attr_text q (c :: v) (c :: w)
| at_space c v w : c = 9 \/ c = 10 -> attr_text q v w -> attr_text q (32 :: v) (c :: w)
| at_crlf v w : attr_text q v w -> attr_text q (32 :: v) (13 :: 10 :: w)
| at_cr v w : (forall r, w <> 10 :: r) -> attr_text q v w -> attr_text q (32 :: v) (13 :: w)
| at_ref t r v w : reference t r -> attr_text q v w -> attr_text q (t ++ v) (r ++ w).

(** a text between tags: every end of line counts as a line feed *)
Inductive char_text : bytes -> bytes -> Prop :=
| ch_end : char_text [] []
| ch_char c v w : c <> 0 -> c <> 38 -> c <> 60 -> c <> 13 ->
    char_text v w -> char_text (c :: v) (c :: w)
| ch_crlf v w : char_text v w -> char_text (10 :: v) (13 :: 10 :: w)
| ch_cr v w : (forall r, w <> 10 :: r) -> char_text v w -> char_text (10 :: v) (13 :: w)
| ch_ref t r v w : reference t r -> char_text v w -> char_text (t ++ v) (r ++ w).

(** a text taken as it is, except for the ends of lines *)
Inductive raw_text : bytes -> bytes -> Prop :=
| raw_end : raw_text [] []
| raw_char c v w : c <> 0 -> c <> 13 -> raw_text v w -> raw_text (c :: v) (c :: w)
| raw_crlf v w : raw_text v w -> raw_text (10 :: v) (13 :: 10 :: w)
| raw_cr v w : (forall r, w <> 10 :: r) -> raw_text v w -> raw_text (10 :: v) (13 :: w).

Definition without (x w : bytes) : Prop :=
  Forall (fun c => c <> 0) w /\ forall a b, w <> a ++ x ++ b.

(** comments and processing instructions *)
Inductive aside : bytes -> Prop :=
| comment w : without [45; 45; 62] w -> aside ([60; 33; 45; 45] ++ w ++ [45; 45; 62])
| instruction nm w : is_name nm -> without [63; 62] w ->
    (forall c r, w = c :: r -> ~ name_char c) ->
    aside ([60; 63] ++ nm ++ w ++ [63; 62]).

Inductive attrs : list (bytes * bytes) -> bytes -> Prop :=
| attrs_end : attrs [] []
| attrs_more sp nm s1 s2 q v w a r :
    spaces sp -> sp <> [] -> is_name nm -> spaces s1 -> spaces s2 ->
    q = 34 \/ q = 39 -> attr_text q v w -> attrs a r ->
    attrs ((nm, v) :: a) (sp ++ nm ++ s1 ++ [61] ++ s2 ++ [q] ++ w ++ [q] ++ r).

Definition markup (w : bytes) : Prop := w = [] \/ exists r, w = 60 :: r.

(** elements, and what is between their tags.  White space alone does not
    count as a text. *)
Inductive element : xml -> bytes -> Prop :=
| element_empty nm a wa sp :
    is_name nm -> attrs a wa -> spaces sp ->
    element (El nm a []) ([60] ++ nm ++ wa ++ sp ++ [47; 62])
| element_full nm a wa sp k wk sp' :
    is_name nm -> attrs a wa -> spaces sp -> content k wk -> spaces sp' ->
    element (El nm a k) ([60] ++ nm ++ wa ++ sp ++ [62] ++ wk ++ [60; 47] ++ nm ++ sp' ++ [62])
with content : list xml -> bytes -> Prop :=
| content_end : content [] []
| content_space sp k w : spaces sp -> sp <> [] -> markup w -> content k w -> content k (sp ++ w)
| content_text t wt k w : char_text t wt -> ~ spaces wt -> markup w -> content k w ->
    content (Tx t :: k) (wt ++ w)
| content_cdata t wt k w : raw_text t wt -> without [93; 93; 62] wt -> content k w ->
    content (Cd t :: k) ([60; 33; 91; 67; 68; 65; 84; 65; 91] ++ wt ++ [93; 93; 62] ++ w)
| content_aside wa k w : aside wa -> content k w -> content k (wa ++ w)
| content_element e we k w : element e we -> content k w -> content (e :: k) (we ++ w).

Scheme element_ind2 := Induction for element Sort Prop
  with content_ind2 := Induction for content Sort Prop.

(** what may stand before and after the one element of a file *)
Inductive misc : bytes -> Prop :=
| misc_end : misc []
| misc_space sp w : spaces sp -> sp <> [] -> markup w -> misc w -> misc (sp ++ w)
| misc_aside wa w : aside wa -> misc w -> misc (wa ++ w).

(** the text of a declaration: what is in quotes may have any characters *)
Definition plain (c : N) : Prop := c <> 0 /\ c <> 34 /\ c <> 39 /\ c <> 60 /\ c <> 62.
Inductive decl_text : bytes -> Prop :=
| decl_end : decl_text []
| decl_plain c w : plain c -> decl_text w -> decl_text (c :: w)
| decl_quoted q v w : q = 34 \/ q = 39 -> Forall (fun c => c <> 0 /\ c <> q) v -> decl_text w ->
    decl_text ([q] ++ v ++ [q] ++ w).

(** the internal subset: declarations, comments, processing instructions, and
    between them white space and references *)
Inductive subset : bytes -> Prop :=
| subset_end : subset []
| subset_plain c w : plain c -> subset w -> subset (c :: w)
| subset_aside a w : aside a -> subset w -> subset (a ++ w)
| subset_decl c t w : name_start c -> decl_text t -> subset w -> subset ([60; 33; c] ++ t ++ [62] ++ w).

Definition doctype (w : bytes) : Prop :=
  exists r, w = [60; 33; 68; 79; 67; 84; 89; 80; 69] ++ r ++ [62] /\
    exists t i, r = t ++ i /\ decl_text t /\
      (i = [] \/ exists u sp, i = [91] ++ u ++ [93] ++ sp /\ subset u /\ spaces sp).

(** a file with the element [e]: a mark of UTF-8 or none, a doctype or none *)
Definition well_formed (e : xml) (file : bytes) : Prop :=
  exists bom m1 dt m2 we m3,
    file = bom ++ m1 ++ dt ++ m2 ++ we ++ m3 /\
    (bom = [] \/ bom = [239; 187; 191]) /\
    misc m1 /\ (dt = [] \/ doctype dt) /\ misc m2 /\ element e we /\ misc m3.

(** ** Files that may be accepted at all *)

(** Coarser than [well_formed]: values of attributes, texts and doctypes may
    contain anything that does not end them, the values that are read are not
    said, and a file may have several elements, and texts outside them.  But
    tags are complete and nested properly, and names and their order are
    those of the file. *)
Inductive rough_attrs : list (bytes * bytes) -> bytes -> Prop :=
| rough_attrs_end : rough_attrs [] []
| rough_attrs_more a r sp nm s1 s2 q v w :
    rough_attrs a r -> spaces sp -> sp <> [] -> is_name nm -> spaces s1 -> spaces s2 ->
    q = 34 \/ q = 39 -> ~ In q w ->
    rough_attrs (a ++ [(nm, v)]) (r ++ sp ++ nm ++ s1 ++ [61] ++ s2 ++ [q] ++ w ++ [q]).

(** a CDATA section *)
Definition cdata_section (w : bytes) : Prop :=
  exists t, w = [60; 33; 91; 67; 68; 65; 84; 65; 91] ++ t ++ [93; 93; 62] /\ without [93; 93; 62] t.

Inductive rough_element : xml -> bytes -> Prop :=
| rough_empty nm a wa sp :
    is_name nm -> rough_attrs a wa -> spaces sp ->
    rough_element (El nm a []) ([60] ++ nm ++ wa ++ sp ++ [47; 62])
| rough_full nm a wa sp k wk sp' :
    is_name nm -> rough_attrs a wa -> spaces sp -> rough_content k wk -> spaces sp' ->
    rough_element (El nm a k) ([60] ++ nm ++ wa ++ sp ++ [62] ++ wk ++ [60; 47] ++ nm ++ sp' ++ [62])
with rough_content : list xml -> bytes -> Prop :=
| rough_end : rough_content [] []
| rough_space k w sp : rough_content k w -> spaces sp -> rough_content k (w ++ sp)
| rough_text k w t wt : rough_content k w -> ~ In 60 wt -> rough_content (k ++ [Tx t]) (w ++ wt)
| rough_cdata k w t wc : rough_content k w -> cdata_section wc -> rough_content (k ++ [Cd t]) (w ++ wc)
| rough_aside k w wa : rough_content k w -> aside wa -> rough_content k (w ++ wa)
| rough_sub k w e we : rough_content k w -> rough_element e we -> rough_content (k ++ [e]) (w ++ we).

Inductive rough_top : list xml -> bytes -> Prop :=
| top_end : rough_top [] []
| top_text k w wt : rough_top k w -> ~ In 60 wt -> rough_top k (w ++ wt)
| top_cdata k w t wc : rough_top k w -> cdata_section wc -> rough_top (k ++ [Cd t]) (w ++ wc)
| top_aside k w wa : rough_top k w -> aside wa -> rough_top k (w ++ wa)
| top_doctype k w r : rough_top k w -> rough_top k (w ++ [60; 33; 68; 79; 67; 84; 89; 80; 69] ++ r ++ [62])
| top_element k w e we : rough_top k w -> rough_element e we -> rough_top (k ++ [e]) (w ++ we).

Definition rough_file (k : list xml) (file : bytes) : Prop :=
  exists bom w, file = bom ++ w /\ (bom = [] \/ bom = [239; 187; 191]) /\ rough_top k w /\
                exists nm a l, In (El nm a l) k.

(** the file is in UTF-8 for any reader: it has bytes below 128 only, or has
    no XML declaration, or has this one *)
Definition utf8_declaration : bytes :=   (* <?xml version="1.0" encoding="UTF-8"?> *)
  [60; 63; 120; 109; 108; 32; 118; 101; 114; 115; 105; 111; 110; 61; 34; 49; 46; 48; 34; 32;
   101; 110; 99; 111; 100; 105; 110; 103; 61; 34; 85; 84; 70; 45; 56; 34; 63; 62].

Definition in_utf8 (file : bytes) : Prop :=
  Forall (fun c => c < 128) file \/
  (forall r, file <> [60; 63; 120; 109; 108] ++ r) \/
  (exists r, file = utf8_declaration ++ r).

(** ** Reports *)

(** how a character of a line is shown *)
Definition shown_as (c : N) : N := if (32 <=? c) && (c <=? 126) then c else 35.

(** the place [off] of a file: the text before the line, the line up to the
    place, the rest of the line, and what follows the line *)
Definition place (file : bytes) (off : nat) (before l1 l2 after : bytes) : Prop :=
  file = before ++ l1 ++ l2 ++ after /\ off = length (before ++ l1) /\
  ~ In 10 l1 /\ ~ In 10 l2 /\
  (before = [] \/ exists p, before = p ++ [10]) /\
  (after = [] \/ exists p, after = 10 :: p).

Definition newlines (w : bytes) : nat := count_occ N.eq_dec w 10.
