(** From the URI of a ControlHub client to the target whose device client gets its
    packets.

    Sources: /repo/uhal/uhal/src/common/ProtocolControlHub.cpp 51-153 (lines 51-90
    are [hub_target] of Uri.v), /repo/controlhub/src/ch_utils.erl 93-96 and 148-166,
    ch_device_client.erl 146-151 and 874-881.

    Simplifications (all of the model): the resolver of Boost.ASIO, asked for IPv4
    endpoints only, is a function from the two texts to the four bytes of an address
    and a port, or to an exception; the host is little-endian; logging is left out. *)
From Coq Require Import NArith List Bool String Ascii.
From Verif Require Import Uri.
Import ListNotations.
Local Open Scope char_scope.
Open Scope N_scope.

(** The four bytes of an IPv4 address, first the one written first.
    ProtocolControlHub.cpp 98-103 (lEndpoint.address()); ip4_address(), ch_utils.erl
    158-159. *)
Definition quad := (N * N * N * N)%type.

(** A number in decimal; [fuel]: not in the code, number of digits at most.  printf's
    %u in address_v4::to_string, ProtocolControlHub.cpp 103; ~w of io_lib:format,
    ch_utils.erl 94. *)
Fixpoint decimal (fuel : nat) (n : N) : str :=
  match fuel with
  | O => []
  | S f => (if n <? 10 then [] else decimal f (n / 10)) ++ [ascii_of_N (48 + n mod 10)]
  end.

(** address().to_string(), ProtocolControlHub.cpp 103; inet_parse:ntoa, ch_utils.erl
    94. *)
Definition dotted (q : quad) : str :=
  let '(a, b, c, d) := q in
  decimal 3 a ++ ["."] ++ decimal 3 b ++ ["."] ++ decimal 3 c ++ ["."] ++ decimal 3 d.

(** A decimal digit of qi::uint_.  ProtocolControlHub.cpp 120-124. *)
Definition digit (c : ascii) : option N :=
  let n := N_of_ascii c in if (48 <=? n) && (n <=? 57) then Some (n - 48) else None.

(** The digits after the first of qi::uint_, which fails if the number does not fit
    into 32 bits.  ProtocolControlHub.cpp 120-124. *)
Fixpoint more_digits (acc : N) (l : str) : option (N * str) :=
  match l with
  | [] => Some (acc, [])
  | c :: t =>
      match digit c with
      | None => Some (acc, l)
      | Some x => if acc * 10 + x <? 2 ^ 32 then more_digits (acc * 10 + x) t else None
      end
  end.

(** qi::uint_ with the skipper.  ProtocolControlHub.cpp 120-124. *)
Definition uint_ (l : str) : option (N * str) :=
  match skip l with
  | c :: t => match digit c with Some x => more_digits x t | None => None end
  | [] => None
  end.

(** uint_ > lit("."), ProtocolControlHub.cpp 121-123. *)
Definition part (l : str) : option (N * str) :=
  match uint_ l with
  | Some (n, r) => match lit ["."] r with Some t => Some (n, t) | None => None end
  | None => None
  end.

(** The address read back, ProtocolControlHub.cpp 116-134; [None]: an
    expectation_failure.  What follows the last number is not looked at.  eps always
    matches, so that phrase_parse does not return false and lIPAddr has four
    elements when it returns. *)
Definition read_back (l : str) : option (N * N * N * N) :=
  match part l with
  | Some (a, l) =>
      match part l with
      | Some (b, l) =>
          match part l with
          | Some (c, l) => match uint_ l with Some (d, _) => Some (a, b, c, d) | None => None end
          | None => None
          end
      | None => None
      end
  | None => None
  end.

(** uint32_t lIPaddress, ProtocolControlHub.cpp 136; the elements of lIPAddr are 32-bit
    numbers and shifting them drops what does not fit. *)
Definition joined (q : N * N * N * N) : N :=
  let '(a, b, c, d) := q in
  N.lor (N.lor (N.lor (N.shiftl a 24 mod 2 ^ 32) (N.shiftl b 16 mod 2 ^ 32)) (N.shiftl c 8 mod 2 ^ 32)) d.

(** What becomes of ExtractTargetID, ProtocolControlHub.cpp 51-141: the exceptions
    XMLfileMissingRequiredParameters (63-68), ParsingTargetURLfailed (85-90),
    HostnameToIPlookupFailed (106-112), ParsingTargetURLfailed (129-134); or address
    and port. *)
Inductive target_id := TMissing | TUnparsed | TLookup | TUnreadable | TId (ip port : N).

(** The first argument of the name target.  ProtocolControlHub.cpp 53-61. *)
Definition target_arg (u : uri) : option (str * str) :=
  find (fun kv => if list_eq_dec Ascii.ascii_dec (fst kv) (s_ "target") then true else false) (u_args u).

Section Resolver.
(** resolver::resolve(udp::v4(), host, service), ProtocolControlHub.cpp 98-102. *)
Variable resolve : str -> str -> option (quad * N).

(** ExtractTargetID, ProtocolControlHub.cpp 51-141. *)
Definition extract_target (u : uri) : target_id :=
  match target_arg u with
  | None => TMissing
  | Some _ =>
      match hub_target u with
      | None => TUnparsed
      | Some (host, service) =>
          match resolve host service with
          | None => TLookup
          | Some (q, port) =>
              match read_back (dotted q) with
              | None => TUnreadable
              | Some p => TId (joined p) port
              end
          end
      end
  end.

(** htonl and htons of a little-endian host, ProtocolControlHub.cpp 151-152. *)
Definition htonl (x : N) : N :=
  N.lor (N.lor (N.shiftl (N.land x 255) 24) (N.shiftl (N.land (N.shiftr x 8) 255) 16))
        (N.lor (N.shiftl (N.land (N.shiftr x 16) 255) 8) (N.land (N.shiftr x 24) 255)).
Definition htons (x : N) : N := N.lor (N.shiftl (N.land x 255) 8) (N.land (N.shiftr x 8) 255).

(** The constructor: mDeviceIPaddress and mDevicePort; [None]: it throws.
    ProtocolControlHub.cpp 144-153. *)
Definition hub_members (u : uri) : option (N * N) :=
  match extract_target u with TId ip port => Some (htonl ip, htons port) | _ => None end.
End Resolver.

(** ipv4_u32_addr_to_tuple, ch_utils.erl 162-166; [None]: no clause matches. *)
Definition to_tuple (x : N) : option quad :=
  if x <? 2 ^ 32 then Some (x / 2 ^ 24 mod 256, x / 2 ^ 16 mod 256, x / 2 ^ 8 mod 256, x mod 256) else None.

(** ip_port_string, ch_utils.erl 93-96, of a 32-bit number and a port. *)
Definition ip_port_string (x port : N) : option str :=
  match to_tuple x with Some q => Some (dotted q ++ [":"] ++ decimal 5 port) | None => None end.

(** The end the device client of a target sends its datagrams to: init of
    ch_device_client.erl 146-151, udp_send 874-881. *)
Definition udp_end (t : N * N) : option (quad * N) :=
  match to_tuple (fst t) with Some q => Some (q, snd t) | None => None end.
