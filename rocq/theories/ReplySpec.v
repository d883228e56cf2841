(** Specification of reply checking: which words answer a packet, and what is
    wrong with words that do not.  Written with the wire format of [WireSpec.v]
    only; nothing of the client's validation code is used (apart from the names
    of the error kinds). *)
From Verif Require Import Word Bits Header ValMem Client Validate WireSpec.
From Coq Require Import NArith List Bool.
Import ListNotations.
Open Scope N_scope.

(** What is wrong with one reply header: it is no header of the protocol, it is
    one of another transaction, or it reports an error. *)
Inductive hfault (v : version) (x : wtx) (h : N) : option verr -> Prop :=
| hf_parse : ~ is_header v h -> hfault v x h (Some VUnparsable)
| hf_fields : is_header v h ->
    spec_type v (wt_type x) <> Some (word_type v h) \/ word_id v h <> wt_id x mod spec_ids v ->
    hfault v x h (Some VFields)
| hf_info : is_header v h -> spec_type v (wt_type x) = Some (word_type v h) ->
    word_id v h = wt_id x mod spec_ids v -> word_info v h <> 0 -> hfault v x h (Some VInfoCode)
| hf_none : header_matches v x h -> hfault v x h None.

(** The fault of the first transaction that has one. *)
Inductive first_fault (v : version) : list wtx -> list N -> option verr -> Prop :=
| ff_nil ws : first_fault v [] ws None
| ff_here x t ws e : hfault v x (hd 0 ws) (Some e) -> first_fault v (x :: t) ws (Some e)
| ff_later x t ws r : hfault v x (hd 0 ws) None ->
    first_fault v t (skipn (N.to_nat (reply_words (wt_type x) (wt_count x))) ws) r ->
    first_fault v (x :: t) ws r.

(** Words of the ControlHub reply preamble; the error code in it (network byte
    order, upper half of the third word). *)
Definition hub_words (g : cfg) : nat := match g_hub g with Some _ => 3 | None => 0 end.
Definition hub_code (ws : list N) : N := (nth 2 ws 0 / 2 ^ 16) mod 256 * 256 + (nth 2 ws 0 / 2 ^ 24) mod 256.

(** The first fault of the reply to a packet: wrong target address or port, error
    code of the ControlHub (1, 3, 4: the target did not answer), packet header
    not the one sent (IPbus 2.0), first bad transaction. *)
Inductive packet_fault (g : cfg) (xs : list wtx) (ws : list N) : option verr -> Prop :=
| pf_addr ip port : g_hub g = Some (ip, port) ->
    nth 1 ws 0 <> ip \/ nth 2 ws 0 mod 65536 <> port -> packet_fault g xs ws (Some VHubAddress)
| pf_code ip port : g_hub g = Some (ip, port) ->
    nth 1 ws 0 = ip -> nth 2 ws 0 mod 65536 = port -> hub_code ws <> 0 ->
    packet_fault g xs ws (Some (if (hub_code ws =? 1) || (hub_code ws =? 3) || (hub_code ws =? 4)
                              then VHubTimeout else VHubError))
| pf_packet : (forall ip port, g_hub g = Some (ip, port) ->
      nth 1 ws 0 = ip /\ nth 2 ws 0 mod 65536 = port /\ hub_code ws = 0) ->
    g_ver g = V2 -> [nth (hub_words g) ws 0] <> packet_header V2 -> packet_fault g xs ws (Some VPacketHeader)
| pf_core r : (forall ip port, g_hub g = Some (ip, port) ->
      nth 1 ws 0 = ip /\ nth 2 ws 0 mod 65536 = port /\ hub_code ws = 0) ->
    (g_ver g = V2 -> [nth (hub_words g) ws 0] = packet_header V2) ->
    first_fault (g_ver g) xs (skipn (hub_words g + length (packet_header (g_ver g))) ws) r -> packet_fault g xs ws r.

(** Position, counted in words, of the reply header of transaction [i]. *)
Definition reply_offset (g : cfg) (xs : list wtx) (i : nat) : nat :=
  let words := fold_right (fun x n => reply_words (wt_type x) (wt_count x) + n) 0 (firstn i xs) in
  (hub_words g + length (packet_header (g_ver g)) + N.to_nat words)%nat.

(** The words [ws] answer the packet with transactions [xs].  Words that were not
    received count as 0. *)
Definition answers (g : cfg) (xs : list wtx) (ws : list N) : Prop :=
  (forall ip port, g_hub g = Some (ip, port) ->
     nth 1 ws 0 = ip /\ nth 2 ws 0 mod 65536 = port /\ hub_code ws = 0) /\
  (g_ver g = V2 -> [nth (hub_words g) ws 0] = packet_header V2) /\
  forall i x, nth_error xs i = Some x -> header_matches (g_ver g) x (nth (reply_offset g xs i) ws 0).
