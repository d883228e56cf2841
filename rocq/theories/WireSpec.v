(** Specification of the IPbus wire format, written from the IPbus 1.3 and 2.0
    specifications and independent of the code: type numbers, header layout,
    number of words of requests and replies. *)
From Verif Require Import Header.
From Coq Require Import NArith List Bool.
Import ListNotations.
Open Scope N_scope.

(** Transaction type numbers of the two protocol versions. *)
Definition spec_type (v : version) (t : ttype) : option N :=
  match v, t with
  | V1, READ => Some 3 | V1, WRITE => Some 4 | V1, RMW_BITS => Some 5 | V1, RMW_SUM => Some 6
  | V1, NI_READ => Some 8 | V1, NI_WRITE => Some 9 | V1, RAI => Some 30 | V1, BOT => Some 31
  | V2, READ => Some 0 | V2, WRITE => Some 1 | V2, NI_READ => Some 2 | V2, NI_WRITE => Some 3
  | V2, RMW_BITS => Some 4 | V2, RMW_SUM => Some 5 | V2, CONFIG_SPACE_READ => Some 6
  | _, _ => None
  end.

(** Header layout.  IPbus 1.3: version 4 bits, transaction ID 11 bits, word
    count 9 bits, type 5 bits, direction 1 bit, info 2 bits.  IPbus 2.0: version
    4 bits, transaction ID 12 bits, word count 8 bits, type 4 bits, info 4 bits.
    [info] includes the direction bit of IPbus 1.3. *)
Definition spec_header (v : version) (ty wc id info : N) : N :=
  match v with
  | V1 => 1 * 2 ^ 28 + id * 2 ^ 17 + wc * 2 ^ 8 + ty * 2 ^ 3 + info
  | V2 => 2 * 2 ^ 28 + id * 2 ^ 16 + wc * 2 ^ 8 + ty * 2 ^ 4 + info
  end.

(** Sizes of the fields. *)
Definition spec_ids (v : version) : N := match v with V1 => 2 ^ 11 | V2 => 2 ^ 12 end.
Definition spec_counts (v : version) : N := match v with V1 => 2 ^ 9 | V2 => 2 ^ 8 end.
Definition spec_infos (v : version) : N := match v with V1 => 2 ^ 3 | V2 => 2 ^ 4 end.

(** The type number in a header word, and its version nibble. *)
Definition word_type (v : version) (h : N) : N :=
  match v with V1 => (h / 2 ^ 3) mod 2 ^ 5 | V2 => (h / 2 ^ 4) mod 2 ^ 4 end.
Definition word_version (h : N) : N := (h / 2 ^ 28) mod 16.
Definition version_number (v : version) : N := match v with V1 => 1 | V2 => 2 end.

(** A request transaction on the wire. *)
Record wtx := mkWtx { wt_type : ttype; wt_count : N; wt_id : N; wt_words : list N }.

(** Number of words after the header of a request. *)
Definition request_words (t : ttype) (count : N) : N :=
  match t with
  | BOT | RAI => 0
  | READ | NI_READ | CONFIG_SPACE_READ => 1
  | WRITE | NI_WRITE => 1 + count
  | RMW_SUM => 2
  | RMW_BITS => 3
  end.

(** Number of words of the reply, including its header. *)
Definition reply_words (t : ttype) (count : N) : N :=
  match t with
  | BOT | WRITE | NI_WRITE => 1
  | READ | NI_READ | CONFIG_SPACE_READ => 1 + count
  | RAI | RMW_SUM | RMW_BITS => 2
  end.

(** A well-formed request transaction: the type exists, the word count fits the
    header field and the body has the length it announces. *)
Definition wtx_ok (v : version) (x : wtx) : Prop :=
  spec_type v (wt_type x) <> None /\ wt_count x < spec_counts v /\
  N.of_nat (length (wt_words x)) = request_words (wt_type x) (wt_count x) /\
  (wt_type x = RMW_SUM \/ wt_type x = RMW_BITS \/ wt_type x = CONFIG_SPACE_READ -> wt_count x = 1).

(** Its words: header (info code 0 in IPbus 1.3, 15 in IPbus 2.0), then body. *)
Definition wtx_words (v : version) (x : wtx) : list N :=
  match spec_type v (wt_type x) with
  | Some ty => spec_header v ty (wt_count x) (wt_id x mod spec_ids v)
                           (match v with V1 => 0 | V2 => 15 end) :: wt_words x
  | None => []
  end.

(** The IPbus 2.0 header of a control packet with packet ID 0 (not checked by
    the target); IPbus 1.3 has no packet header. *)
Definition packet_header (v : version) : list N :=
  match v with V1 => [] | V2 => [2 * 2 ^ 28 + 15 * 2 ^ 4] end.

(** The ID and the info code in a header word (the info code without the
    direction bit of IPbus 1.3). *)
Definition word_id (v : version) (h : N) : N :=
  match v with V1 => (h / 2 ^ 17) mod 2 ^ 11 | V2 => (h / 2 ^ 16) mod 2 ^ 12 end.
Definition word_info (v : version) (h : N) : N :=
  match v with V1 => h mod 2 ^ 2 | V2 => h mod 2 ^ 4 end.
Definition word_count (v : version) (h : N) : N := (h / 2 ^ 8) mod spec_counts v.

(** [h] is a header of the protocol: right version, existing type. *)
Definition is_header (v : version) (h : N) : Prop :=
  word_version h = version_number v /\ exists t, spec_type v t = Some (word_type v h).

(** The reply words [ws] answer the transactions [xs]: at the place of each reply
    header there is a header with the type and ID of the request and info code
    0.  Words that were not received count as 0. *)
Definition header_matches (v : version) (x : wtx) (h : N) : Prop :=
  is_header v h /\ spec_type v (wt_type x) = Some (word_type v h) /\
  word_id v h = wt_id x mod spec_ids v /\ word_info v h = 0.

Fixpoint reply_matches (v : version) (xs : list wtx) (ws : list N) : Prop :=
  match xs with
  | [] => True
  | x :: t => header_matches v x (hd 0 ws) /\
              reply_matches v t (skipn (N.to_nat (reply_words (wt_type x) (wt_count x))) ws)
  end.
