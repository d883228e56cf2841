(** What is said about [Manager.v]. *)
From Coq Require Import NArith List Bool PeanoNat.
From Verif Require Import Hub Manager.
Import ListNotations.
Open Scope N_scope.

(** A request in a TCP chunk of the uHAL client: the address, the port and the
    number of 32-bit words, most significant byte first, then the packet. *)
Definition chunk (t : target) (reqs : list bytes) : bytes :=
  concat (map (fun q => be32 (fst t) ++ be16 (snd t) ++ be16 (N.of_nat (length q / 4)) ++ q) reqs).
Definition good_target (t : target) : Prop := fst t < 2 ^ 32 /\ snd t < 2 ^ 16.
Definition good_req (q : bytes) : Prop := (length q mod 4 = 0)%nat /\ N.of_nat (length q / 4) < 2 ^ 16.
Definition good_chunk (reqs : list bytes) : Prop := reqs <> [] /\ Forall good_req reqs.

(** What a client and a device client do, for one target: a chunk of requests; a
    response. *)
Inductive tevent := TChunk (reqs : list bytes) | TResp (code : N) (data : bytes).
Definition event_of (t : target) (e : tevent) : mevent :=
  match e with TChunk reqs => MChunk (chunk t reqs) | TResp c d => MResp (mkR (Some t) c d) end.
Definition chunks_of (es : list tevent) : list (list bytes) := flat_map (fun e => match e with TChunk reqs => [reqs] | _ => [] end) es.
Definition resps_of (t : target) (es : list tevent) : list response := flat_map (fun e => match e with TResp c d => [mkR (Some t) c d] | _ => [] end) es.

(** The responses put together as the requests were: as many in the first group as
    requests in the first chunk, and so on; only complete groups. *)
Fixpoint groups {A} (ks : list nat) (rs : list A) : list (list A) :=
  match ks with
  | [] => []
  | k :: t => if Nat.ltb (length rs) k then [] else firstn k rs :: groups t (skipn k rs)
  end.
