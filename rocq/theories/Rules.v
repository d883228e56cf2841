(** The attribute rules: which handler of the XML parser runs for an element.

    Source: /repo/uhal/uhal/include/uhal/TemplateDefinitions/XmlParser.hxx. *)
From Coq Require Import NArith List Bool String.
From Verif Require Import NodeTree.
Import ListNotations.
Open Scope N_scope.

(** class Rule: mRequired, mForbidden and mOptional (std::set, here lists without
    repetition; the order is irrelevant).  XmlParser.hpp 194-198. *)
Record rule := mkRule { r_req : list string; r_forb : list string; r_opt : list string }.

(** Rule::Rule, XmlParser.hxx 88-95. *)
Definition empty_rule : rule := mkRule [] [] [].

(** std::set::count, as used in XmlParser.hxx 105-144. *)
Definition mem_str (s : string) (l : list string) : bool := existsb (String.eqb s) l.

(** std::set::insert.  As used in XmlParser.hxx 105-144. *)
Definition set_insert (l : list string) (s : string) : list string := if mem_str s l then l else l ++ [s].

(** Rule::require, forbid and optional, XmlParser.hxx 105-144; [None]:
    ContradictoryParserRule. *)
Inductive rcall := Require (s : string) | Forbid (s : string) | Optional (s : string).
Definition rule_call (r : rule) (c : rcall) : option rule :=
  match c with
  | Require s => if mem_str s (r_forb r) then None else Some (mkRule (set_insert (r_req r) s) (r_forb r) (r_opt r))
  | Forbid s => if mem_str s (r_req r) then None else Some (mkRule (r_req r) (set_insert (r_forb r) s) (r_opt r))
  | Optional s => Some (mkRule (r_req r) (r_forb r) (set_insert (r_opt r) s))
  end.
Fixpoint rule_calls (r : rule) (cs : list rcall) : option rule :=
  match cs with
  | [] => Some r
  | c :: t => match rule_call r c with Some r' => rule_calls r' t | None => None end
  end.

(** class Parser: mHashes, mNextHash, and mRules with mRequiredHash and
    mForbiddenHash; the handler of a rule is its position.  XmlParser.hpp 239-245. *)
Record parser := mkParser {
  p_hashes : list (string * N);
  p_next : N;
  p_rules : list (rule * N * N)
}.

(** Parser::Parser, XmlParser.hxx 238-244. *)
Definition empty_parser : parser := mkParser [] 1 [].

(** The three loops of addRule, XmlParser.hxx 260-322: the bits of the names,
    new ones allotted from mNextHash (uint64_t); [None]: TooManyAttributes. *)
Fixpoint add_names (hs : list (string * N)) (next acc : N) (l : list string) : option (list (string * N) * N * N) :=
  match l with
  | [] => Some (hs, next, acc)
  | s :: t =>
      match assoc s hs with
      | Some h => add_names hs next (N.lor acc h) t
      | None =>
          if next =? 0 then None
          else add_names (hs ++ [(s, next)]) ((2 * next) mod 2 ^ 64) (N.lor acc next) t
      end
  end.

(** Parser::addRule, XmlParser.hxx 253-326. *)
Definition add_rule (p : parser) (r : rule) : option parser :=
  match add_names (p_hashes p) (p_next p) 0 (r_req r) with
  | None => None
  | Some (h1, n1, req) =>
      match add_names h1 n1 0 (r_forb r) with
      | None => None
      | Some (h2, n2, forb) =>
          match add_names h2 n2 0 (r_opt r) with
          | None => None
          | Some (h3, n3, _) => Some (mkParser h3 n3 (p_rules p ++ [(r, req, forb)]))
          end
      end
  end.
Fixpoint add_rules (p : parser) (rs : list rule) : option parser :=
  match rs with
  | [] => Some p
  | r :: t => match add_rule p r with Some p' => add_rules p' t | None => None end
  end.

(** Outcome of Parser::operator(): the rule whose handler runs, or an exception;
    [LengthError] is the std::length_error of line 413 for an element without
    attributes. *)
Inductive parsed := Run (k : nat) | UnknownAttribute | AmbiguousParserRules | NoRulesPassed | LengthError.

(** XmlParser.hxx 332-346: the bits of the attributes present. *)
Fixpoint attr_hash (hs : list (string * N)) (acc : N) (l : list string) : option N :=
  match l with
  | [] => Some acc
  | s :: t => match assoc s hs with Some h => attr_hash hs (N.lor acc h) t | None => None end
  end.

(** XmlParser.hxx 353-368: the rules that pass, with their position. *)
Fixpoint passed (h : N) (k : nat) (l : list (rule * N * N)) : list (nat * nat) :=
  match l with
  | [] => []
  | (r, req, forb) :: t =>
      if negb (N.land forb h =? 0) then passed h (S k) t
      else if negb (N.ldiff req h =? 0) then passed h (S k) t
      else (k, List.length (r_req r)) :: passed h (S k) t
  end.

(** XmlParser.hxx 378-392: the rule with the most required attributes; [None] is
    the null pointer. *)
Fixpoint most_stringent (best : option nat) (counter : nat) (l : list (nat * nat)) : option nat :=
  match l with
  | [] => best
  | (k, n) :: t =>
      if Nat.ltb counter n then most_stringent (Some k) n t
      else if Nat.eqb counter n then most_stringent None counter t
      else most_stringent best counter t
  end.

(** Parser::operator(), XmlParser.hxx 329-454, for an element with attributes
    [l] (names, in order).  Simplified: an attribute name is a string; the log
    messages are left out. *)
Definition parse (p : parser) (l : list string) : parsed :=
  match attr_hash (p_hashes p) 0 l with
  | None => UnknownAttribute
  | Some h =>
      match passed h 0 (p_rules p) with
      | [] => match l with [] => LengthError | _ => NoRulesPassed end
      | [(k, _)] => Run k
      | ps => match most_stringent None 0 ps with Some k => Run k | None => AmbiguousParserRules end
      end
  end.
