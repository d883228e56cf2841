(** Model of IPbus transaction headers.

    Source: /repo/uhal/uhal/src/common/ProtocolIPbus.cpp lines 107-203 (IPbus
    1.3) and 312-408 (IPbus 2.0). *)
From Verif Require Import Word.
From Coq Require Import NArith Bool.
Open Scope N_scope.

(** ProtocolIPbus.hpp: the two protocol versions the library instantiates
    (IPbus<1,3> and IPbus<2,0>). *)
Inductive version := V1 | V2.

(** IPbusTransactionType, /repo/uhal/uhal/include/uhal/ProtocolIPbusCore.hpp
    line 72 ff.. *)
Inductive ttype :=
| BOT | READ | WRITE | RMW_BITS | RMW_SUM | RAI | NI_READ | NI_WRITE
| CONFIG_SPACE_READ.

(** Boolean equality of transaction types (C++ enum comparison).
    enum IPbusTransactionType, ProtocolIPbusCore.hpp 72-83. *)
Definition ttype_eqb (a b : ttype) : bool :=
  match a, b with
  | BOT, BOT | READ, READ | WRITE, WRITE | RMW_BITS, RMW_BITS
  | RMW_SUM, RMW_SUM | RAI, RAI | NI_READ, NI_READ | NI_WRITE, NI_WRITE
  | CONFIG_SPACE_READ, CONFIG_SPACE_READ => true
  | _, _ => false
  end.

(** ProtocolIPbus.cpp 110-144 (V1) and 315-352 (V2): the type field; [None]
    where the C++ throws ValidationError. *)
Definition type_code (v : version) (t : ttype) : option N :=
  match v, t with
  | V1, BOT => Some 0xF8
  | V1, READ => Some 0x18
  | V1, WRITE => Some 0x20
  | V1, RMW_BITS => Some 0x28
  | V1, RMW_SUM => Some 0x30
  | V1, RAI => Some 0xF0
  | V1, NI_READ => Some 0x40
  | V1, NI_WRITE => Some 0x48
  | V1, CONFIG_SPACE_READ => None
  | V2, READ => Some 0x00
  | V2, WRITE => Some 0x10
  | V2, NI_READ => Some 0x20
  | V2, NI_WRITE => Some 0x30
  | V2, RMW_BITS => Some 0x40
  | V2, RMW_SUM => Some 0x50
  | V2, CONFIG_SPACE_READ => Some 0x60
  | V2, BOT => None
  | V2, RAI => None
  end.

(** ProtocolIPbus.cpp 107-147 (V1) and 312-355 (V2): [CalculateHeader]; [None]
    where the C++ throws. *)
Definition calc_header (v : version) (t : ttype) (wc id info : N) : option N :=
  match type_code v t with
  | None => None
  | Some ty =>
      Some match v with
           | V1 => N.lor (N.lor (N.lor (N.lor 0x10000000
                     (N.shiftl (N.land id 0x7ff) 17))
                     (N.shiftl (N.land wc 0x1ff) 8)) ty) (N.land info 0x7)
           | V2 => N.lor (N.lor (N.lor (N.lor 0x20000000
                     (N.shiftl (N.land id 0xfff) 16))
                     (N.shiftl (N.land wc 0xff) 8)) ty) (N.land info 0xF)
           end
  end.

(** ProtocolIPbus.cpp 150-154 (V1) and 358-362 (V2): [ExpectedHeader], the
    header of a reply. *)
Definition expected_header (v : version) (t : ttype) (wc id info : N)
  : option N :=
  match v with
  | V1 => calc_header V1 t wc id (N.lor info 4)
  | V2 => calc_header V2 t wc id info
  end.

(** Result of [ExtractHeader]: the four output arguments.  ProtocolIPbus.cpp 158 and 366. *)
Record hdr := mkHdr { h_type : ttype; h_wc : N; h_id : N; h_info : N }.

(** ProtocolIPbus.cpp 168-197 (V1) and 376-402 (V2): the switch on the type
    field. *)
Definition type_of_code (v : version) (c : N) : option ttype :=
  match v with
  | V1 =>
      if c =? 0xF8 then Some BOT
      else if c =? 0x18 then Some READ
      else if c =? 0x20 then Some WRITE
      else if c =? 0x28 then Some RMW_BITS
      else if c =? 0x30 then Some RMW_SUM
      else if c =? 0xF0 then Some RAI
      else if c =? 0x40 then Some NI_READ
      else if c =? 0x48 then Some NI_WRITE
      else None
  | V2 =>
      if c =? 0x00 then Some READ
      else if c =? 0x10 then Some WRITE
      else if c =? 0x20 then Some NI_READ
      else if c =? 0x30 then Some NI_WRITE
      else if c =? 0x40 then Some RMW_BITS
      else if c =? 0x50 then Some RMW_SUM
      else if c =? 0x60 then Some CONFIG_SPACE_READ
      else None
  end.

(** ProtocolIPbus.cpp 157-203 (V1) and 365-408 (V2): [ExtractHeader]; [None]
    where the C++ returns false. *)
Definition extract_header (v : version) (h : N) : option hdr :=
  match v with
  | V1 =>
      if negb (N.land (shr32 h 28) 0xF =? 1) then None
      else match type_of_code V1 (N.land h 0xF8) with
           | None => None
           | Some t => Some (mkHdr t (N.land (shr32 h 8) 0x1ff)
                                     (N.land (shr32 h 17) 0x7ff)
                                     (N.land h 0x3))
           end
  | V2 =>
      if negb (N.land (shr32 h 28) 0xF =? 2) then None
      else match type_of_code V2 (N.land h 0xF0) with
           | None => None
           | Some t => Some (mkHdr t (N.land (shr32 h 8) 0xff)
                                     (N.land (shr32 h 16) 0xfff)
                                     (N.land h 0xf))
           end
  end.
