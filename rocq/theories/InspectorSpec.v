(** What the packet inspectors should report: written from the wire format
    (WireSpec.v), without the functions of the model. *)
From Verif Require Import Word Header WireSpec Inspector.
From Coq Require Import NArith List Bool.
Import ListNotations.
Open Scope N_scope.

(** Number of words after the header of a request or reply. *)
Definition body_words (d : direction) (t : ttype) (count : N) : N :=
  match d with Requests => request_words t count | Replies => reply_words t count - 1 end.

(** The types the inspectors have a callback for: none for RAI (read address
    information, IPbus 1.3, which the client never sends); none for replies to
    configuration space reads. *)
Definition known (d : direction) (t : ttype) : Prop :=
  match d, t with _, RAI => False | Replies, CONFIG_SPACE_READ => False | _, _ => True end.

(** The callback for a transaction of type [t] with the words [body] behind its
    header. *)
Definition report (d : direction) (t : ttype) (body : list N) : handler :=
  match d, t, body with
  | _, BOT, _ => KBot
  | Requests, READ, a :: _ => KRead a
  | Requests, NI_READ, a :: _ => KNiRead a
  | Requests, CONFIG_SPACE_READ, a :: _ => KConfig a
  | Requests, WRITE, a :: ws => KWrite a ws
  | Requests, NI_WRITE, a :: ws => KNiWrite a ws
  | Requests, RMW_SUM, a :: x :: _ => KSum a x
  | Requests, RMW_BITS, a :: m :: o :: _ => KBits a m o
  | Replies, READ, ws => KData true ws
  | Replies, NI_READ, ws => KData false ws
  | Replies, WRITE, _ => KWritten true
  | Replies, NI_WRITE, _ => KWritten false
  | Replies, RMW_SUM, x :: _ => KValue false x
  | Replies, RMW_BITS, x :: _ => KValue true x
  | _, _, _ => KUnknown
  end.

(** The info code a request must have; replies may have any. *)
Definition info_ok (d : direction) (v : version) (w : N) : Prop :=
  match d with Requests => word_info v w = (match v with V1 => 0 | V2 => 15 end) | Replies => True end.

(** [w] can head a transaction of type [t]. *)
Definition heads (d : direction) (v : version) (w : N) (t : ttype) : Prop :=
  word_version w = version_number v /\ spec_type v t = Some (word_type v w) /\ info_ok d v w /\ known d t.

(** A complete transaction and the call that reports it. *)
Inductive txn (d : direction) (v : version) : list N -> call -> Prop :=
| txn_intro w t body : heads d v w t ->
    N.of_nat (length body) = body_words d t (word_count v w) ->
    txn d v (w :: body)
        (KTx w (mkHdr t (word_count v w) (word_id v w) (word_info v w)) (report d t body)).

(** The packet header and its call: IPbus 2.0 only. *)
Inductive head_of (v : version) : list N -> list call -> Prop :=
| head_v1 : v = V1 -> head_of v [] []
| head_v2 p : v = V2 -> p mod 16 = 0 -> head_of v [p] [KPacket PControl p ((p / 2 ^ 8) mod 2 ^ 16)].

(** A packet whose end comes too early: it has no transaction at all, or its
    last transaction announces more words than there are.  With [go_on], a
    packet may also continue with another packet header in place of a
    transaction header. *)
Inductive cut_txs (d : direction) (v : version) (go_on : bool) : list N -> Prop :=
| cut_none : cut_txs d v go_on []
| cut_inside w t rest : heads d v w t ->
    N.of_nat (length rest) < body_words d t (word_count v w) -> cut_txs d v go_on (w :: rest)
| cut_later ws c rest : txn d v ws c -> rest <> [] -> cut_txs d v go_on rest -> cut_txs d v go_on (ws ++ rest)
| cut_again w rest : v = V2 -> go_on = true -> ~ is_header v w -> w mod 16 = 0 ->
    cut_txs d v go_on rest -> cut_txs d v go_on (w :: rest).

Inductive cut_packet (d : direction) (v : version) (go_on : bool) : list N -> Prop :=
| cut_empty : v = V2 -> cut_packet d v go_on []
| cut_body h cs rest : head_of v h cs -> cut_txs d v go_on rest -> cut_packet d v go_on (h ++ rest).

(** The words a call reports. *)
Definition handler_words (f : handler) : list N :=
  match f with
  | KBot | KWritten _ | KUnknown => []
  | KNiRead a | KRead a | KConfig a => [a]
  | KNiWrite a ws | KWrite a ws => a :: ws
  | KSum a x => [a; x]
  | KBits a m o => [a; m; o]
  | KData _ ws => ws
  | KValue _ x => [x]
  end.
Definition call_words (c : call) : list N :=
  match c with KPacket _ p _ => [p] | KTx w _ f => w :: handler_words f end.

(** A call with the right fields: those of its header. *)
Definition call_right (d : direction) (v : version) (c : call) : Prop :=
  match c with
  | KPacket k p ctr =>
      v = V2 /\ ctr = (p / 2 ^ 8) mod 2 ^ 16 /\
      match k with
      | PControl => p mod 16 = 0
      | PStatus => p mod 16 = 1
      | PResend => p mod 16 = 2 /\ d = Requests
      | PUnknown => p mod 16 <> 0 /\ p mod 16 <> 1 /\ (d = Requests -> p mod 16 <> 2)
      end
  | KTx w x f =>
      word_version w = version_number v /\ spec_type v (h_type x) = Some (word_type v w) /\ info_ok d v w /\
      h_wc x = word_count v w /\ h_id x = word_id v w /\ h_info x = word_info v w /\
      (known d (h_type x) ->
         f = report d (h_type x) (handler_words f) /\
         N.of_nat (length (handler_words f)) = body_words d (h_type x) (word_count v w)) /\
      (~ known d (h_type x) -> f = KUnknown)
  end.

(** Why and where [analyze] stopped, when the words [ws] from [start] on were
    reported by the calls [cs] and the words [rest] follow them. *)
Inductive ended (d : direction) (v : version) (go_on : bool) (start stop : nat) (cs : list call) (ws rest : list N)
  : outcome -> Prop :=
| end_whole : stop = (start + length ws)%nat -> ended d v go_on start stop cs ws rest (Done true stop)
| end_control cs0 k p ctr : cs = cs0 ++ [KPacket k p ctr] -> k = PStatus \/ k = PResend ->
    ended d v go_on start stop cs ws rest (Done true stop)
| end_bad_packet cs0 p ctr : cs = cs0 ++ [KPacket PUnknown p ctr] ->
    ended d v go_on start stop cs ws rest (Done false (start + length ws))
| end_bad_type cs0 w x : cs = cs0 ++ [KTx w x KUnknown] ->
    ended d v go_on start stop cs ws rest (Done false (start + length ws))
| end_not_header w r : v = V2 -> go_on = false -> rest = w :: r -> ~ is_header v w ->
    ended d v go_on start stop cs ws rest (Done true (start + length ws))
| end_not_header1 w r : v = V1 -> rest = w :: r -> ~ is_header v w ->
    ended d v go_on start stop cs ws rest (Done false (start + length ws + 1))
| end_info w r : rest = w :: r -> is_header v w -> ~ info_ok d v w ->
    ended d v go_on start stop cs ws rest (Done false (start + length ws + 1))
| end_overrun : ended d v go_on start stop cs ws rest Overrun.
