(** What connection files and address tables say, on the elements of a document;
    written without the functions of FromFile.v. *)
From Coq Require Import NArith List Bool String Ascii.
From Verif Require Xml Builder.
Import ListNotations.

(** A text of a document as a string: one character for each byte. *)
Definition reads (w : Xml.bytes) (s : string) : Prop := map ascii_of_N w = list_ascii_of_string s.

Definition called (nm : string) (e : Xml.xml) : Prop :=
  exists n a k, e = Xml.El n a k /\ reads n nm.

(** The first attribute of a name, and its value. *)
Definition value_of (a : list (Xml.bytes * Xml.bytes)) (nm v : string) : Prop :=
  exists a1 n w a2, a = a1 ++ (n, w) :: a2 /\ reads n nm /\ reads w v /\
                    Forall (fun x => ~ reads (fst x) nm) a1.

(** A connection file with the element [e] has a complete entry. *)
Definition listed (e : Xml.xml) (id uri table : string) : Prop :=
  exists n a k n' a' k', e = Xml.El n a k /\ reads n "connections" /\
    In (Xml.El n' a' k') k /\ reads n' "connection" /\
    value_of a' "id" id /\ value_of a' "uri" uri /\ value_of a' "address_table" table.

(** An element of an address table: the attributes as strings, and the meaning of
    the children called "node"; everything else does not count. *)
Inductive means : Xml.xml -> Builder.xml -> Prop :=
| means_element n a k l xs :
    Forall2 (fun x y => reads (fst x) (fst y) /\ reads (snd x) (snd y)) a l -> mean k xs ->
    means (Xml.El n a k) (Builder.Xml l xs)
with mean : list Xml.xml -> list Builder.xml -> Prop :=
| mean_end : mean [] []
| mean_other e k xs : ~ called "node" e -> mean k xs -> mean (e :: k) xs
| mean_node e k x xs : called "node" e -> means e x -> mean k xs -> mean (e :: k) (x :: xs).

(** Two elements that say the same: attributes in any order, with the same values;
    the children called "node" say the same, and the others do not matter. *)
Inductive alike : Xml.xml -> Xml.xml -> Prop :=
| alike_element n a k n' a' k' :
    (forall nm v, value_of a nm v <-> value_of a' nm v) -> alikes k k' ->
    alike (Xml.El n a k) (Xml.El n' a' k')
with alikes : list Xml.xml -> list Xml.xml -> Prop :=
| alikes_end : alikes [] []
| alikes_left e k k' : ~ called "node" e -> alikes k k' -> alikes (e :: k) k'
| alikes_right e k k' : ~ called "node" e -> alikes k k' -> alikes k (e :: k')
| alikes_both e e' k k' : called "node" e -> called "node" e' -> alike e e' -> alikes k k' -> alikes (e :: k) (e' :: k').

(** The name of an address table: after the last dot of the last part of the path
    comes "xml" in letters of any case.  (Anything may follow: C115_name_refuted.) *)
Definition xml_name (path : string) : Prop :=
  exists stem x m l rest, list_ascii_of_string path = (stem ++ "." :: x :: m :: l :: rest)%char /\
    (x = "x" \/ x = "X")%char /\ (m = "m" \/ m = "M")%char /\ (l = "l" \/ l = "L")%char /\
    ~ In "."%char rest /\ ~ In "/"%char rest.

(** An address table: the parser accepts it and finds an element called "node";
    the first of them counts (C115_second_refuted). *)
Definition is_table (path : string) (file : Xml.bytes) (x : Builder.xml) : Prop :=
  xml_name path /\ file <> [] /\
  exists k1 e k2, Xml.open_xml file = Xml.Document (k1 ++ e :: k2) /\
    Forall (fun y => ~ called "node" y) k1 /\ called "node" e /\ means e x.

(** No table, but no harm done either: not the name of one, or read and found to be
    something else, or reported as not well formed. *)
Definition harmless (path : string) (file : Xml.bytes) : Prop :=
  (forall x, ~ is_table path file x) /\
  (xml_name path -> file <> [] /\
     ((exists k, Xml.open_xml file = Xml.Document k) \/
      (exists st a b c d e, Xml.open_xml file = Xml.Reported st (Xml.Report a b c d e)))).

(** An expression names one file: a protocol and a name without white space,
    semicolons, and for the protocol colons. *)
Definition plain_text (bad : list ascii) (s : string) : Prop :=
  Forall (fun c => ~ In c bad /\ (32 < N_of_ascii c < 127)%N) (list_ascii_of_string s).
Definition expression (prot f expr : string) : Prop :=
  expr = (prot ++ "://" ++ f)%string /\ prot <> EmptyString /\ plain_text [";"; ":"]%char prot /\ plain_text [";"]%char f.
