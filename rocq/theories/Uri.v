(** Text grammars: device URIs, file lists, attribute values; the client factory.

    Sources: /repo/uhal/grammars/src/common/URI.cpp 61-101, URIGrammar.cpp 44-64,
    SemicolonDelimitedUriListGrammar.cpp 43-51, NodeTreeParametersGrammar.cpp
    43-52, NodeTreeFirmwareInfoAttributeGrammar.cpp 43-53; and
    /repo/uhal/uhal/src/common/ClientFactory.cpp 65-140,
    include/uhal/TemplateDefinitions/ClientFactory.hxx 45-75, and
    src/common/ProtocolControlHub.cpp 51-90.

    Boost.Spirit is not in the repository.  Modelled of it: with the skipper
    ascii::space, every character and literal parser first passes over white
    space; [a - b] fails where [b] matches; in [a > b] a failure of [a] is a
    failure and one of [b] throws expectation_failure; on failure of an optional
    or repeated parser its input and attribute are as before (up to white space
    passed over, which every later parser passes over as well).  A rule declared
    without a skipper passes over white space before it begins and not after that;
    phrase_parse passes over the white space that follows.  Characters above
    127 are neither white space nor punctuation. *)
From Coq Require Import NArith List Bool String Ascii.
Import ListNotations.
Local Open Scope char_scope.

(** std::string.  As in URI.hpp 49-63. *)
Definition str := list ascii.
(** Not in the code: literals. *)
Definition s_ (s : string) : str := list_ascii_of_string s.

(** ascii::space.  Skipper of URIGrammar.cpp 44-64. *)
Definition is_space (c : ascii) : bool :=
  let n := N_of_ascii c in ((9 <=? n) && (n <=? 13) || (n =? 32))%N.
(** ascii::punct.  URIGrammar.cpp 44-64. *)
Definition is_punct (c : ascii) : bool :=
  let n := N_of_ascii c in
  ((33 <=? n) && (n <=? 47) || (58 <=? n) && (n <=? 64) || (91 <=? n) && (n <=? 96) || (123 <=? n) && (n <=? 126))%N.
(** qi::lit of one character.  URIGrammar.cpp 44-64. *)
Definition is (x c : ascii) : bool := Ascii.eqb c x.

(** The skipper.  URIGrammar.cpp 44-64. *)
Fixpoint skip (l : str) : str :=
  match l with c :: t => if is_space c then skip t else l | [] => [] end.

(** Kleene star of (char_ - stop): what it collects, and what is left.  URIGrammar.cpp 44-64. *)
Fixpoint many (stop : ascii -> bool) (l : str) : str * str :=
  match l with
  | [] => ([], [])
  | c :: t =>
      if is_space c then many stop t
      else if stop c then ([], l)
      else let (a, r) := many stop t in (c :: a, r)
  end.

(** qi::lit of a string: white space first, then exactly these characters.
    URIGrammar.cpp 44-64. *)
Fixpoint prefix (p l : str) : option str :=
  match p, l with
  | [], _ => Some l
  | x :: p', c :: t => if Ascii.eqb c x then prefix p' t else None
  | _ :: _, [] => None
  end.
(** URIGrammar.cpp 44-64. *)
Definition lit (p l : str) : option str := prefix p (skip l).

(** struct URI, URI.hpp 49-63. *)
Record uri := mkUri { u_prot : str; u_host : str; u_port : str; u_path : str; u_ext : str; u_args : list (str * str) }.

(** Outcome of phrase_parse: it returned true, with the input left; it returned
    false; it threw.  ClientFactory.cpp 100-112. *)
Inductive parsed (A : Type) := POk (a : A) (rest : str) | PFail | PThrow.
Arguments POk {A} a rest.
Arguments PFail {A}.
Arguments PThrow {A}.

(** - ( lit(lead) > +(char_ - stop) ), as in URIGrammar.cpp 48 with 55-57; [None]:
    expectation_failure. *)
Definition section (lead : ascii) (stop : ascii -> bool) (l : str) : option (str * str) :=
  match lit [lead] l with
  | None => Some ([], l)
  | Some t => let (a, r) := many stop t in match a with [] => None | _ => Some (a, r) end
  end.

(** *data_pairs with separator [sep], URIGrammar.cpp 58-61 (and
    NodeTreeFirmwareInfoAttributeGrammar.cpp 49-52).  Each pair takes at least two
    characters, so [fuel] = length of the input is enough. *)
Fixpoint pairs (fuel : nat) (sep : ascii) (l : str) : option (list (str * str) * str) :=
  match fuel with
  | O => Some ([], l)
  | S fuel =>
      let (k, r) := many (is "=") l in
      match k with
      | [] => Some ([], l)
      | _ =>
          match lit ["="] r with
          | None => None
          | Some r =>
              let (v, r) := many (is sep) r in
              let r := match lit [sep] r with Some t => t | None => r end in
              match pairs fuel sep r with
              | Some (ps, r) => Some ((k, v) :: ps, r)
              | None => None
              end
          end
      end
  end.

(** - ( lit(lead) > *data_pairs ).  URIGrammar.cpp 44-64. *)
Definition pair_section (lead sep : ascii) (l : str) : option (list (str * str) * str) :=
  match lit [lead] l with
  | None => Some ([], l)
  | Some t => pairs (List.length t) sep t
  end.

(** The URI grammar, URIGrammar.cpp 48-61. *)
Definition parse_uri (l : str) : parsed uri :=
  let (p, l) := many (is ":") l in
  match p with
  | [] => PFail
  | _ =>
      match lit [":"; "/"; "/"] l with
      | None => PThrow
      | Some l =>
          let (h, l) := many (fun c => is ":" c || is "?" c) l in
          match h with
          | [] => PThrow
          | _ =>
              match section ":" is_punct l with
              | None => PThrow
              | Some (po, l) =>
                  match section "/" (fun c => is "." c || is "?" c) l with
                  | None => PThrow
                  | Some (pa, l) =>
                      match section "." (is "?") l with
                      | None => PThrow
                      | Some (e, l) =>
                          match pair_section "?" "&" l with
                          | None => PThrow
                          | Some (args, l) => POk (mkUri p h po pa e args) l
                          end
                      end
                  end
              end
          end
      end
  end.

(** The loop of toString, URI.cpp 82-98. *)
Fixpoint print_args (l : list (str * str)) : str :=
  match l with
  | [] => []
  | [(k, v)] => k ++ "=" :: v
  | (k, v) :: t => k ++ "=" :: v ++ "&" :: print_args t
  end.

(** toString, URI.cpp 61-101. *)
Definition print_uri (u : uri) : str :=
  u_prot u ++ [":"; "/"; "/"] ++ u_host u
  ++ (match u_port u with [] => [] | p => ":" :: p end)
  ++ (match u_path u with [] => [] | p => "/" :: p end)
  ++ (match u_ext u with [] => [] | p => "." :: p end)
  ++ (match u_args u with [] => [] | a => "?" :: print_args a end).

(** *lit(c).  SemicolonDelimitedUriListGrammar.cpp 43-51. *)
Fixpoint lits (x : ascii) (l : str) : str :=
  match l with c :: t => if is_space c then lits x t else if Ascii.eqb c x then lits x t else l | [] => [] end.

(** Kleene star of (char_ - "://"), SemicolonDelimitedUriListGrammar.cpp 49. *)
Fixpoint until_scheme (l : str) : str * str :=
  match l with
  | [] => ([], [])
  | c :: t =>
      if is_space c then until_scheme t
      else match prefix [":"; "/"; "/"] l with
           | Some _ => ([], l)
           | None => let (a, r) := until_scheme t in (c :: a, r)
           end
  end.

(** The list grammar, SemicolonDelimitedUriListGrammar.cpp 47-50; [None]:
    expectation_failure, which ParseSemicolonDelimitedUriList turns into
    UriListParsingError (files.cpp 64-84). *)
Fixpoint uri_list (fuel : nat) (l : str) : option (list (str * str)) :=
  match fuel with
  | O => Some []
  | S fuel =>
      let (k, r) := until_scheme (lits ";" l) in
      match k with
      | [] => Some []
      | _ =>
          match lit [":"; "/"; "/"] r with
          | None => None
          | Some r =>
              let (v, r) := many (is ";") r in
              match uri_list fuel (lits ";" r) with
              | Some ps => Some ((k, v) :: ps)
              | None => None
              end
          end
      end
  end.
Definition parse_uri_list (l : str) : option (list (str * str)) := uri_list (List.length l) l.

(** NodeTreeFirmwareInfoAttributeGrammar.cpp 47-52: the type and the pairs. *)
Definition parse_fwinfo (l : str) : parsed (str * list (str * str)) :=
  let (e, l) := many (is ";") l in
  match e with
  | [] => PFail
  | _ => match pair_section ";" ";" l with
         | None => PThrow
         | Some (ps, l) => POk (e, ps) l
         end
  end.

(** Characters of parameter names and values, NodeTreeParametersGrammar.cpp
    50-51. *)
Definition is_word (c : ascii) : bool :=
  let n := N_of_ascii c in
  ((65 <=? n) && (n <=? 90) || (97 <=? n) && (n <=? 122) || (n =? 95) || (48 <=? n) && (n <=? 57))%N.
Definition is_first (c : ascii) : bool :=
  let n := N_of_ascii c in is_word c && negb ((48 <=? n) && (n <=? 57))%N.

(** *char_(set) and +char_(set) in a rule without a skipper: the characters
    taken, and what is left.  NodeTreeParametersGrammar.cpp 50-51. *)
Fixpoint words (l : str) : str * str :=
  match l with
  | c :: t => if is_word c then let (a, r) := words t in (c :: a, r) else ([], l)
  | [] => ([], [])
  end.

(** pair, NodeTreeParametersGrammar.cpp 49-51; [None]: no pair here. *)
Definition param (l : str) : option ((str * str) * str) :=
  match l with
  | c :: _ =>
      if is_first c then
        let (k, r) := words l in
        match prefix ["="] r with
        | None => Some ((k, []), r)
        | Some t => let (v, r') := words t in
                    match v with [] => Some ((k, []), r) | _ => Some ((k, v), r') end
        end
      else None
  | [] => None
  end.

(** *((lit(';') | '&') >> pair), NodeTreeParametersGrammar.cpp 48; every round
    takes at least two characters. *)
Fixpoint params_more (fuel : nat) (l : str) : list (str * str) * str :=
  match fuel with
  | O => ([], l)
  | S fuel =>
      match l with
      | c :: t =>
          if is ";" c || is "&" c then
            match param t with
            | Some (kv, r) => let (ps, r) := params_more fuel r in (kv :: ps, r)
            | None => ([], l)
            end
          else ([], l)
      | [] => ([], [])
      end
  end.

(** The parameters grammar, NodeTreeParametersGrammar.cpp 48-51.  Its rules have
    no skipper (NodeTreeParametersGrammar.hpp 51-62): phrase_parse passes over
    white space before the first rule and after it, not within.  The pairs are
    inserted into a map in this order, which keeps the first of equal names. *)
Definition parse_params (l : str) : parsed (list (str * str)) :=
  match param (skip l) with
  | None => PFail
  | Some (kv, r) => let (ps, r) := params_more (List.length r) r in POk (kv :: ps) (skip r)
  end.

(** Target of a ControlHub client, ProtocolControlHub.cpp 51-90: the first
    "target" argument, split at its first colon; [None]: one of the two
    exceptions.  The rest (92-140) is in HubTarget.v. *)
Definition hub_target (u : uri) : option (str * str) :=
  match find (fun kv => if list_eq_dec Ascii.ascii_dec (fst kv) (s_ "target") then true else false) (u_args u) with
  | None => None
  | Some (_, t) =>
      let (h, r) := many (is ":") t in
      match lit [":"] r with
      | None => None
      | Some r => Some (h, fst (many (fun _ => false) r))
      end
  end.

(** ** The client factory *)

(** ClientInfo and mClientMap, ClientFactory.hpp 191-200: [T] identifies the class registered,
    and whether it is user-defined; the map by protocol.  Simplified:
    std::unordered_map is an association list, newest first. *)
Definition registry (T : Type) := list (str * (T * bool)).

(** std::string::operator==, as used in ClientFactory.cpp 96-140. *)
Definition str_eqb (a b : str) : bool := if list_eq_dec Ascii.ascii_dec a b then true else false.

(** unordered_map::find.  ClientFactory.cpp 96-140. *)
Fixpoint find_client {T} (r : registry T) (p : str) : option (T * bool) :=
  match r with
  | [] => None
  | (q, i) :: t => if str_eqb q p then Some i else find_client t p
  end.

(** add, ClientFactory.hxx 45-61. *)
Definition add_client {T} (r : registry T) (p : str) (t : T) (user : bool) : registry T :=
  match find_client r p with Some _ => r | None => (p, (t, user)) :: r end.

(** The protocols registered by getInstance, ClientFactory.cpp 71-81; the class
    is named by the position in the list. *)
Definition builtins : list str :=
  map s_ ["ipbusudp-1.3"; "ipbusudp-2.0"; "ipbustcp-1.3"; "ipbustcp-2.0"; "chtcp-1.3"; "chtcp-2.0"; "ipbuspcie-2.0"; "ipbusmmap-2.0"]%string.

(** Classes: the built-in ones and those of the user.  ClientFactory.cpp 65-87. *)
Inductive klass := KBuiltin (n : nat) | KUser (n : nat).

(** getInstance, ClientFactory.cpp 65-87: the built-in registrations; then
    registerClient of the user (ClientFactory.hxx 64-68), in order. *)
Definition instance : registry klass :=
  fold_left (fun r e => add_client r (snd e) (KBuiltin (fst e)) false) (combine (seq 0 8) builtins) [].
Definition registered (us : list (str * nat)) : registry klass :=
  fold_left (fun r e => add_client r (fst e) (KUser (snd e)) true) us instance.

(** Outcome of getClient.  ClientFactory.cpp 96-140. *)
Inductive client_res := CNew (k : klass) (id : str) (u : uri) | CNoParse | CNoProtocol | CNotEnabled.

(** A default-constructed URI.  URI.hpp 49-63. *)
Definition empty_uri : uri := mkUri [] [] [] [] [] [].

(** getClient, ClientFactory.cpp 96-140: the result of phrase_parse and the input
    left are not looked at. *)
Definition get_client (r : registry klass) (id : str) (text : str) (active : list str) : client_res :=
  let go u := match find_client r (u_prot u) with
              | None => CNoProtocol
              | Some (k, user) =>
                  if user && negb (existsb (str_eqb (u_prot u)) active) then CNotEnabled else CNew k id u
              end in
  match parse_uri text with
  | PThrow => CNoParse
  | PFail => go empty_uri
  | POk u _ => go u
  end.
