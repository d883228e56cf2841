(** The ControlHub's transaction managers (one for each TCP connection of a client),
    in front of the device client of [Hub.v].

    Sources: /repo/controlhub/src/ch_transaction_manager.erl 167-266,
    ch_device_client_registry.erl 66-86, ch_config.erl 24, 103-119, 140-190,
    ch_error_codes.hrl 34-35.

    Simplifications (all of the model):
    - a TCP chunk is one message ({packet, 4}, ch_config.erl 24): the four bytes of
      length in front of it are taken off and put on by the socket;
    - statistics and logging are left out, so nr_in_flight (only logged) is too
      (statistics: Listener.v);
    - the end of a connection is not modelled here (Listener.v). *)
From Coq Require Import NArith List Bool PeanoNat.
From Verif Require Import Hub.
Import ListNotations.
Open Scope N_scope.

(** Address and port of a target.  Line 232: <<TargetIPAddr:32, TargetPort:16>>. *)
Definition target := (N * N)%type.

(** A device_client_response message, as the manager sees it.  The address is None
    if it is not the 32-bit number (ch_device_client.erl 763 puts the tuple
    there).  Line 193. *)
Record response := mkR { r_from : option target; r_code : N; r_data : bytes }.

(** State of a manager, lines 25-37: target_ip_u32 and target_port (None: the atoms
    unknown), q_nr_reqs_per_tcp, reply_io_list; nr_replies_acc is the number of
    replies in it.  m_dead: the process has ended by an exception. *)
Record man := mkMan { m_to : option target; m_q : list nat; m_acc : list response; m_dead : bool }.
Definition man0 : man := mkMan None [] [] false.

(** Result of unpack_and_enqueue: an error reply, or the target and the number of
    requests.  ch_transaction_manager.erl 232-252. *)
Inductive unpacked := UError (r : response) | UDone (t : option target) (n : nat).

Section Lookup.
(** ch_device_client_registry:get_pid, lines 66-86: false is blocked. *)
Variable allow : target -> bool.

(** unpack_and_enqueue and enqueue_request, lines 232-266: the requests cast, each
    with the target whose device client it goes to; [to]: the one found before.
    [fuel]: Not in the code; the length of the binary is enough.  Simplified: the
    length of a binary of less than eight bytes is not looked at. *)
Fixpoint unpack (fuel : nat) (p : bytes) (to : option target) (n : nat) : list (target * bytes) * unpacked :=
  match fuel with
  | O => ([], UDone None n)
  | S fuel =>
      match p with
      | a :: b :: c :: d :: e :: f :: g :: h :: t =>
          let this := (un32 a b c d, e * 256 + f) in
          let len := (4 * N.to_nat (g * 256 + h))%nat in
          if Nat.leb len (length t) then
            let dest := match to with
                        | Some x => Some x
                        | None => if allow this then Some this else None
                        end in
            match dest with
            | None => ([], UError (mkR (Some this) 7 []))
            | Some x =>
                match skipn len t with
                | [] => ([(x, firstn len t)], UDone (Some this) (S n))
                | tl => let (cs, u) := unpack fuel tl (Some x) (S n) in ((x, firstn len t) :: cs, u)
                end
            end
          else if Nat.ltb (length p) 12 then ([], UDone None n)
          else ([], UDone (Some this) n)
      | _ => ([], UDone None n)
      end
  end.

(** The bytes of a reply in a TCP chunk, lines 198 and 203. *)
Definition reply_bytes (r : response) : bytes :=
  match r_from r with
  | Some (ip, port) => be32 (N.of_nat (length (r_data r)) + 8) ++ be32 ip ++ be16 port ++ be16 (r_code r) ++ r_data r
  | None => []
  end.

(** A TCP chunk arrives, lines 173-191: the requests cast and the chunks sent.
    Simplified: a chunk is a list of replies; the bytes are [reply_bytes] of
    each. *)
Definition on_chunk (m : man) (p : bytes) : man * list (target * bytes) * list (list response) :=
  if Nat.eqb (length p mod 4) 0 then
    match unpack (S (length p)) p None 0 with
    | (cs, UError r) => (m, cs, [[r]])
    | (cs, UDone t n) => (mkMan t (m_q m ++ [n]) (m_acc m) (m_dead m), cs, [])
    end
  else (m, [], []).

(** Two targets are the same: the pattern in ch_transaction_manager.erl 193. *)
Definition same_target (a b : target) : bool := (fst a =? fst b) && (snd a =? snd b).

(** A message of a device client, lines 193-205: only those from the target at which
    the last chunk was directed; others are ignored (lines 226-228).  queue:peek of
    an empty queue gives an atom, at which element/2 fails. *)
Definition on_response (m : man) (r : response) : man * list (list response) :=
  match r_from r, m_to m with
  | Some a, Some b =>
      if same_target a b then
        match m_q m with
        | [] => (mkMan (m_to m) [] (m_acc m) true, [])
        | k :: q =>
            if Nat.eqb (S (length (m_acc m))) k then (mkMan (m_to m) q [] (m_dead m), [m_acc m ++ [r]])
            else (mkMan (m_to m) (m_q m) (m_acc m ++ [r]) (m_dead m), [])
        end
      else (m, [])
  | _, _ => (m, [])
  end.

(** What happens to a manager; and all that happens.  After the end of the process
    nothing does.  ch_transaction_manager.erl 170-228. *)
Inductive mevent := MChunk (p : bytes) | MResp (r : response).
Definition man_step (m : man) (e : mevent) : man * list (target * bytes) * list (list response) :=
  if m_dead m then (m, [], [])
  else match e with
       | MChunk p => on_chunk m p
       | MResp r => let (m', out) := on_response m r in (m', [], out)
       end.
Fixpoint man_run (m : man) (es : list mevent) : man * list (target * bytes) * list (list response) :=
  match es with
  | [] => (m, [], [])
  | e :: t =>
      let '(m1, c1, o1) := man_step m e in
      let '(m2, c2, o2) := man_run m1 t in (m2, c1 ++ c2, o1 ++ o2)
  end.
End Lookup.

(** ** The allowlist *)

(** A line of the file: an address, and a port or any.  ch_config.erl 140-190;
    reading the text: Allowlist.v. *)
Definition line := (N * option N)%type.

(** dict:store for each line in turn: the last line of an address stays.
    ch_config.erl 163, 171. *)
Fixpoint dict_of (ls : list line) (d : N -> option (option N)) : N -> option (option N) :=
  match ls with
  | [] => d
  | (ip, p) :: t => dict_of t (fun x => if x =? ip then Some p else d x)
  end.

(** get_device_access_status, ch_config.erl 103-119; device_allowlist = none is
    None. *)
Definition access (ls : option (list line)) (t : target) : bool :=
  match ls with
  | None => true
  | Some ls =>
      match dict_of ls (fun _ => None) (fst t) with
      | Some None => true
      | Some (Some p) => p =? snd t
      | None => false
      end
  end.

(** device_allowlist_mode is permissive or enforcing; a device client that exists
    already is used without asking.  ch_device_client_registry.erl 66-82. *)
Definition get_pid (ls : option (list line)) (permissive : bool) (known : target -> bool) (t : target) : bool :=
  known t || access ls t || permissive.
