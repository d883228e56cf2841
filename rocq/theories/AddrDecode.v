(** The generator of address decoders for firmware.

    Source: /repo/uhal/tools/scripts/gen_ipbus_addr_decode 28-380.

    Simplifications (all of the model): the nodes of the device are given with their flags,
    sizes and widths (254-263 take them from the device); widths are natural numbers;
    what is generated is not a text but what the text says; numbers of Python are natural
    numbers, comparisons being arranged so that no difference is negative. *)
From Coq Require Import NArith List Bool String Ascii.
From Verif Require Import Word.
Import ListNotations.
Open Scope N_scope.

(** class node, gen_ipbus_addr_decode 75-99. *)
Inductive dnode := DNode (name : string) (addr : N) (flag : bool) (size : N) (width : option N) (desc : list dnode).
(** The members, gen_ipbus_addr_decode 82-88. *)
Definition d_name (n : dnode) : string := match n with DNode x _ _ _ _ _ => x end.
(** addr, gen_ipbus_addr_decode 85. *)
Definition d_addr (n : dnode) : N := match n with DNode _ x _ _ _ _ => x end.
(** flag: an endpoint, gen_ipbus_addr_decode 84. *)
Definition d_flag (n : dnode) : bool := match n with DNode _ _ x _ _ _ => x end.
(** size, gen_ipbus_addr_decode 86. *)
Definition d_size (n : dnode) : N := match n with DNode _ _ _ x _ _ => x end.
(** width, gen_ipbus_addr_decode 87. *)
Definition d_width (n : dnode) : option N := match n with DNode _ _ _ _ x _ => x end.
(** desc, gen_ipbus_addr_decode 88. *)
Definition d_desc (n : dnode) : list dnode := match n with DNode _ _ _ _ _ x => x end.

(** sorted by address, stable; gen_ipbus_addr_decode 95-99. *)
Fixpoint insert (n : dnode) (l : list dnode) : list dnode :=
  match l with [] => [n] | m :: r => if d_addr n <=? d_addr m then n :: m :: r else m :: insert n r end.
(** node.sort, gen_ipbus_addr_decode 95-99. *)
Definition sort (l : list dnode) : list dnode := fold_right insert [] l.

(** get_desc, gen_ipbus_addr_decode 174-179. *)
Fixpoint all_of (n : dnode) : list dnode := match n with DNode _ _ _ _ _ ds => flat_map (fun i => i :: all_of i) ds end.

(** get_leaves, gen_ipbus_addr_decode 183-191. *)
Fixpoint leaves (n : dnode) : list dnode :=
  match n with DNode _ _ _ _ _ ds =>
    flat_map (fun i => if d_flag i then [] else match d_desc i with [] => [i] | _ :: _ => leaves i end) ds end.

(** get_flagged_nodes, gen_ipbus_addr_decode 195-202. *)
Fixpoint flagged (n : dnode) : list dnode :=
  match n with DNode _ _ _ _ _ ds => flat_map (fun i => if d_flag i then [i] else flagged i) ds end.

(** What _assign_width does to a node: the node with widths, how many errors were
    found, whether an exception was raised.  gen_ipbus_addr_decode 141-170. *)
Record assigned := { a_node : dnode; a_errors : nat; a_crash : bool }.

(** True counts as an error; gen_ipbus_addr_decode 148-169. *)
Definition err (b : bool) : nat := if b then 1 else 0.

Section Up.
(** int(math.ceil(math.log(x, 2))), in floating point; gen_ipbus_addr_decode 163. *)
Variable up : N -> N.

(** max_addr as left by the loop, gen_ipbus_addr_decode 159-161; [None]: a descendant
    without width, an exception. *)
Fixpoint max_addr (l : list dnode) (m : N) : option N :=
  match l with
  | [] => Some m
  | i :: r => match d_width i with Some w => max_addr r (d_addr i + 2 ^ w) | None => None end
  end.

(** _assign_width once its endpoint descendants have widths and its descendants are
    sorted; gen_ipbus_addr_decode 142-170.  [errors], [crash]: those of the descendants.
    The differences of 152 and 164 are on the other side here. *)
Definition finish (name : string) (addr : N) (flag : bool) (size : N) (width : option N) (ds : list dnode) (errors : nat) (crash : bool) : assigned :=
  let n := DNode name addr flag size width ds in
  let aligned := fun w => err (negb (addr mod 2 ^ w =? 0)) in
  match flagged n with
  | [] =>
      let w := match width with Some w => w | None => 0 end in
      {| a_node := DNode name addr flag size (Some w) ds;
         a_errors := errors + err (2 ^ w <? size) + List.length (filter (fun i => addr + 2 ^ w <? d_addr i + d_size i) (all_of n)) + aligned w;
         a_crash := crash |}
  | l =>
      let mixed := err (match leaves n with [] => false | _ :: _ => true end) in
      match max_addr l 0 with
      | None => {| a_node := n; a_errors := errors; a_crash := true |}
      | Some m =>
          match width with
          | None =>
              {| a_node := DNode name addr flag size (Some (up (m - addr))) ds; a_errors := errors + mixed + aligned (up (m - addr));
                 a_crash := crash || (m <=? addr) |}
          | Some w => {| a_node := n; a_errors := errors + mixed + err (addr + 2 ^ w <? m) + aligned w; a_crash := crash |}
          end
      end
  end.

(** _assign_width of the endpoints at or below a node; gen_ipbus_addr_decode 141-170. *)
Fixpoint process (n : dnode) : assigned :=
  match n with
  | DNode name addr flag size width ds =>
      let rs := map process ds in
      let errors := list_sum (map a_errors rs) in
      let crash := existsb a_crash rs in
      if flag then finish name addr flag size width (sort (map a_node rs)) errors crash
      else {| a_node := DNode name addr flag size width (map a_node rs); a_errors := errors; a_crash := crash |}
  end.

(** assign_widths: of the root, which is no endpoint itself.  gen_ipbus_addr_decode
    134-137. *)
Definition assign_widths (root : dnode) : assigned :=
  match root with
  | DNode name addr flag size width ds =>
      let rs := map process ds in
      finish name addr flag size width (sort (map a_node rs)) (list_sum (map a_errors rs)) (existsb a_crash rs)
  end.

(** ** The decoder *)

(** A slave: name, address, width.  gen_ipbus_addr_decode 278-300. *)
Record slave := { sl_name : string; sl_addr : N; sl_width : N }.

(** The endpoints; [None]: one without width, an exception.  gen_ipbus_addr_decode 278-293. *)
Fixpoint slaves_of (l : list dnode) : option (list slave) :=
  match l with
  | [] => Some []
  | n :: r =>
      match d_width n, slaves_of r with
      | Some w, Some s => Some ({| sl_name := d_name n; sl_addr := d_addr n; sl_width := w |} :: s)
      | _, _ => None
      end
  end.

(** The test of a pair, gen_ipbus_addr_decode 280-281. *)
Definition pair_error (s1 s2 : slave) : bool := (sl_addr s1 <=? sl_addr s2) && (sl_addr s2 <? sl_addr s1 + 2 ^ sl_width s1).
(** itertools.permutations(l, 2), gen_ipbus_addr_decode 279: each with each one at
    another place. *)
Fixpoint pairs {A} (l : list A) : list (A * A) :=
  match l with [] => [] | x :: r => map (fun y => (x, y)) r ++ map (fun y => (y, x)) r ++ pairs r end.

(** The bits below the width.  gen_ipbus_addr_decode 293; BitArray as a number of 32
    bits, 28-72. *)
Definition mask_bits (s : slave) : N := 2 ^ sl_width s - 1.
(** __invert__, gen_ipbus_addr_decode 56-59. *)
Definition inv (x : N) : N := N.lxor x (2 ^ 32 - 1).
(** or_prod, gen_ipbus_addr_decode 287 and 298. *)
Definition or_prod (l : list slave) : N := fold_left (fun o s => N.lor o (N.land (sl_addr s) (inv (mask_bits s)))) l 0.
(** and_prod, gen_ipbus_addr_decode 288 and 299. *)
Definition and_prod (l : list slave) : N := fold_left (fun a s => N.land a (N.lor (sl_addr s) (mask_bits s))) l (2 ^ 32 - 1).
(** addr_mask, gen_ipbus_addr_decode 302. *)
Definition addr_mask (l : list slave) : N := N.land (or_prod l) (inv (and_prod l)).

(** The pattern of std_match, the highest bit first.  gen_ipbus_addr_decode 340-354. *)
Definition pattern (mask addr : N) : list ascii :=
  map (fun i => if negb (N.testbit mask (N.of_nat i)) then "-"%char else if N.testbit addr (N.of_nat i) then "1"%char else "0"%char) (rev (seq 0 32)).

(** The body of the VHDL function: one value, or the branches of the if statement with
    their patterns; the value of the else branch.  gen_ipbus_addr_decode 331-360. *)
Inductive selection := Always (k : N) | Chain (branches : list (list ascii * N)) (otherwise : N).

(** The file: the constants with their names, the selection, the width of the selector.
    gen_ipbus_addr_decode 317-368. *)
Record decoder := { dec_slaves : list (string * N); dec_sel : selection; dec_width : N }.

(** A letter in upper case.  str.upper, gen_ipbus_addr_decode 327; ids are ASCII. *)
Definition upper (c : ascii) : ascii :=
  let n := N_of_ascii c in if (97 <=? n) && (n <=? 122) then ascii_of_N (n - 32) else c.
(** The name of the constant of a slave, gen_ipbus_addr_decode 327. *)
Definition constant_name (s : string) : string :=
  ("N_SLV_" ++ string_of_list_ascii (map (fun c => let c := upper c in if Ascii.eqb c "." then "_"%char else c) (list_ascii_of_string s)))%string.

(** Numbers the slaves, enumerate; gen_ipbus_addr_decode 291. *)
Fixpoint number {A} (k : N) (l : list A) : list (A * N) := match l with [] => [] | x :: r => (x, k) :: number (k + 1) r end.

(** The generated code, gen_ipbus_addr_decode 317-368; the logarithm of 365 is exact, and the
    selection has the values of the constants for their names. *)
Definition emit (l : list slave) : decoder :=
  let n := N.of_nat (List.length l) in
  {| dec_slaves := map (fun sk => (constant_name (sl_name (fst sk)), snd sk)) (number 0 l);
     dec_sel := match l with
                | [] => Always 0
                | [_] => Always 0
                | _ => Chain (map (fun sk => (pattern (N.land (addr_mask l) (inv (mask_bits (fst sk)))) (sl_addr (fst sk)), snd sk)) (number 0 l)) n
                end;
     dec_width := match l with [] => 1 | _ => N.log2 n + 1 end |}.

(** How the script ends: with a file, with the exit code for errors, with an exception.
    gen_ipbus_addr_decode 271-307 and 317-380. *)
Inductive result := Written (d : decoder) | NodeErrors | Exception_.

(** main from line 271 on, gen_ipbus_addr_decode 271-380. *)
Definition generate (root : dnode) : result :=
  let a := assign_widths root in
  if a_crash a then Exception_
  else if negb (Nat.eqb (a_errors a) 0) then NodeErrors
  else match slaves_of (flagged (a_node a)) with
       | None => Exception_
       | Some l =>
           if existsb (fun s => 32 <? sl_width s) l then Exception_
           else if existsb (fun p => pair_error (fst p) (snd p)) (pairs l) ||
                   existsb (fun s => negb (N.land (sl_addr s) (mask_bits s) =? 0)) l then NodeErrors
           else Written (emit l)
       end.
End Up.

(** ** The tree of the script *)

(** '.'.join(l), gen_ipbus_addr_decode 112. *)
Fixpoint join (l : list string) : string := match l with [] => "" | [x] => x | x :: r => (x ++ "." ++ join r)%string end.
(** s.split('.'), gen_ipbus_addr_decode 110. *)
Fixpoint split (s : string) : list string :=
  match s with
  | EmptyString => [EmptyString]
  | String c r =>
      if Ascii.eqb c "." then EmptyString :: split r
      else match split r with h :: t => String c h :: t | [] => [String c EmptyString] end
  end.
(** The names looked for, one per round of the loop: gen_ipbus_addr_decode 110-112. *)
Definition prefixes (s : string) : list string := map (fun i => join (firstn (S i) (split s))) (seq 0 (List.length (split s))).

(** One round: goes on with [f] in the first descendant named [p], or appends [n] and ends the
    loop.  gen_ipbus_addr_decode 113-118. *)
Fixpoint put (p : string) (f : dnode -> dnode) (n : dnode) (l : list dnode) : list dnode :=
  match l with [] => [n] | c :: r => if String.eqb (d_name c) p then f c :: r else c :: put p f n r end.
(** The loop of add; at its end nothing has been added.  gen_ipbus_addr_decode 111-118. *)
Fixpoint add_to (ps : list string) (n np : dnode) : dnode :=
  match ps, np with
  | [], _ => np
  | p :: r, DNode name addr flag size width ds => DNode name addr flag size width (put p (add_to r n) n ds)
  end.
(** nodetree.add, gen_ipbus_addr_decode 108-118. *)
Definition add (root n : dnode) : dnode := add_to (prefixes (d_name n)) n root.
(** The tree of all the nodes of the device, in the order of getNodes.  gen_ipbus_addr_decode
    101-104 and 254-263. *)
Definition build (width : option N) (l : list dnode) : dnode := fold_left add l (DNode "TOP" 0 false 0 width []).
