(** Memory of the page ring: where packets are written and replies read, the
    mmap accesses, and the copy of a reply page into the reply buffers.

    Sources: /repo/uhal/uhal/src/common/ProtocolPCIe.cpp 157-186, 234-276,
    425-440, 443-498, 526-535, 606-640; ProtocolMmap.cpp 107-117, 167-244,
    370-385, 388-431, 457-466, 512-541.
    Memory is a map from 32-bit word index to word; every address in these
    sources is a multiple of 4. *)
From Verif Require Import Word Client Validate Ring.
From Coq Require Import NArith List Bool.
Import ListNotations.
Open Scope N_scope.

(** Layout members after connect: mPageSize and mMaxPacketSize, in words.
    ProtocolPCIe.hpp 202, ProtocolMmap.hpp 200. *)
Record layout := mkLay { p_size : N; p_maxpkt : N }.

(** connect, ProtocolPCIe.cpp 464-485, ProtocolMmap.cpp 406-427: [pages], [size],
    [next] are status words 0-2, [user] the mMaxPacketSize so far (0 or from the
    URI).  [None]: PCIeInitialisationError / MmapInitialisationError. *)
Definition connect_layout (k : rkind) (user pages size next : N) : option layout :=
  let ps := match k with RPCIe => size | RMmap => N.min 4096 size end in
  let mp := if (user =? 0) || (ps <=? user) then sub32 ps 1 else user in
  if 0xFFFF <? size then None
  else if pages <=? next then None
  else Some (mkLay ps mp).

(** getMaxSendSize, getMaxReplySize: ProtocolPCIe.cpp 425-440, ProtocolMmap.cpp
    370-385 (uint32_t product). *)
Definition page_limit (y : layout) : N := wrap32 (p_maxpkt y * 4).

(** Header word of a request page, ProtocolPCIe.cpp 528, ProtocolMmap.cpp 459. *)
Definition page_header (send_bytes : N) : N :=
  N.lor 0x10000 (N.land (sub32 (send_bytes / 4) 1) 0xFFFF).

(** Number of words announced by a page header, ProtocolPCIe.cpp 626,
    ProtocolMmap.cpp 527 (and PCIeDummyHardware.cpp 142). *)
Definition header_words (w : N) : N := N.shiftr w 16 + N.land w 0xFFFF.

(** Byte address of a request page, ProtocolPCIe.cpp 534, ProtocolMmap.cpp 465:
    uint32_t products. *)
Definition write_addr (size idx : N) : N := wrap32 (wrap32 (idx * 4) * size).

(** Word address of a reply page, ProtocolPCIe.cpp 620, ProtocolMmap.cpp 521:
    size_t sum passed as uint32_t; the byte address in File::read is a uint32_t
    product (ProtocolPCIe.cpp 165, ProtocolMmap.cpp 182). *)
Definition read_addr (size idx : N) : N := wrap32 (4 * wrap32 (4 + idx * size)).

(** Number of words read from a reply page, ProtocolPCIe.cpp 613-616 (with the
    workaround of 614-615), ProtocolMmap.cpp 516-517. *)
Definition read_words (workaround : bool) (reply_bytes : N) : N :=
  let n := reply_bytes / 4 in
  (if workaround && ((n mod 32 =? 0) || (n mod 32 =? 28) || (n <? 4)) then n + 4 else n) + 1.

(** Memory, word index to word: the device file or the mapping, ProtocolPCIe.cpp
    157-186, ProtocolMmap.cpp 167-244. *)
Definition mem := N -> N.

(** One 32-bit store. *)
Definition set_word (m : mem) (a x : N) : mem := fun b => if b =? a then x else m b.

(** MAP_SIZE, ProtocolMmap.cpp 116: 32*1024 + 16 bytes. *)
Definition map_size : N := 32 * 1024 + 16.

(** The copy loop of Mmap::File::write, ProtocolMmap.cpp 228-240: 8 bytes at a
    time; the last 4 bytes are stored as a uint64_t whose upper half is 0. *)
Fixpoint mmap_store (m : mem) (a : N) (ws : list N) : mem :=
  match ws with
  | [] => m
  | [x] => set_word (set_word m a x) (a + 1) 0
  | x :: y :: t => mmap_store (set_word (set_word m a x) (a + 1) y) (a + 2) t
  end.

(** Mmap::File::write, ProtocolMmap.cpp 191-244: [None] is the exception; the
    sum is a size_t sum. *)
Definition mmap_write (m : mem) (addr : N) (ws : list N) : option mem :=
  if map_size <? addr + 4 * N.of_nat (length ws) then None
  else Some (mmap_store m (addr / 4) ws).

(** Mmap::File::read, ProtocolMmap.cpp 167-188: words read from word address
    [a]; the sum of the check is a uint32_t sum. *)
Definition mmap_read (m : mem) (a n : N) : option (list N) :=
  if map_size <? add32 (wrap32 (4 * a)) (wrap32 (4 * n)) then None
  else Some (map (fun i => m (wrap32 (4 * a) / 4 + N.of_nat i)) (seq 0 (N.to_nat n))).

(** The kernel driver's write of PCIe::File::write, ProtocolPCIe.cpp 234-276:
    the words go where they were sent. *)
Fixpoint pcie_store (m : mem) (a : N) (ws : list N) : mem :=
  match ws with [] => m | x :: t => pcie_store (set_word m a x) (a + 1) t end.

(** Result of copying a reply page: the words put in each reply buffer;
    std::out_of_range from vector::at; memory accessed out of bounds.  ProtocolPCIe.cpp 620-640. *)
Inductive copied := CpOk (l : list (dest * list N)) | CpRange | CpBad.

(** memcpy of [n] bytes starting at word [a] of the page contents.  ProtocolPCIe.cpp 638. *)
Definition take_words (page : list N) (a n : N) : option (list N) :=
  if 4 * a + n <=? 4 * N.of_nat (length page)
  then Some (firstn (N.to_nat (n / 4)) (skipn (N.to_nat a) page)) else None.

(** ProtocolPCIe.cpp 630-640, ProtocolMmap.cpp 531-541: [nb] is
    4*lNrWordsInPacket, [c] is lNrBytesCopied. *)
Fixpoint copy_loop (nb : N) (page : list N) (c : N) (ds : list dest) : copied :=
  match ds with
  | [] => CpOk []
  | d :: t =>
      if nb <=? c then CpOk (map (fun e => (e, [])) (d :: t)) else
      let n := N.min (4 * dest_words d) (wrap32 (nb - c)) in
      let a := 1 + c / 4 in
      if N.of_nat (length page) <=? a then CpRange else
      match take_words page a n with
      | None => CpBad
      | Some ws =>
          match copy_loop nb page (c + n) t with
          | CpOk l => CpOk ((d, ws) :: l)
          | r => r
          end
      end
  end.

(** The copy of one page (lPageContents.at(0) is its header word). *)
Definition copy_page (page : list N) (b : buf) : copied :=
  match page with
  | [] => CpRange
  | w :: _ => copy_loop (4 * header_words w) page 0 (b_reply b)
  end.
