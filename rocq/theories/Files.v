(** Opening of address and connection files: file:// expressions and http:// downloads.

    Sources: /repo/uhal/uhal/src/common/utilities/files.cpp lines 87-341;
    /repo/uhal/grammars/src/common/HttpResponseGrammar.cpp 67-75 and
    /repo/uhal/grammars/include/uhal/grammars/HttpResponseGrammar.hpp 51-66, 73-81.

    Boost.Spirit is not in the repository.  Modelled of it: with a skipper, white space is
    passed over before each character and literal; a lexeme passes over white space before
    it begins and not after that; what a failed sequence has already parsed stays in the
    attribute.  Simplified: double_ knows no "inf" and "nan"; a number that int_ cannot
    hold leaves the attribute alone.

    Of the network, the name service and the shell only the results are modelled. *)
From Coq Require Import NArith ZArith List Bool.
Import ListNotations.
Open Scope N_scope.

Definition bytes := list N.

(** boost::spirit::ascii::space: tab, line feed, vertical tab, form feed, carriage return,
    space.  files.cpp 160, 251. *)
Definition is_space (c : N) : bool := (9 <=? c) && (c <=? 13) || (c =? 32).
Fixpoint skip (l : bytes) : bytes := match l with c :: t => if is_space c then skip t else l | [] => [] end.

(** A literal at this place (without a skipper).  HttpResponseGrammar.cpp 73-74. *)
Fixpoint starts (p l : bytes) : bool :=
  match p, l with
  | [], _ => true
  | a :: p, b :: l => (a =? b) && starts p l
  | _, [] => false
  end.

(** ** The URL *)

(** + ( char_ - "/" ) with the skipper: the characters up to a slash, and the rest.
    files.cpp 159, HttpResponseGrammar.cpp 71. *)
Fixpoint upto_slash (l : bytes) : bytes * bytes :=
  match l with
  | [] => ([], [])
  | c :: t =>
      if is_space c then upto_slash t
      else if c =? 47 then ([], l)
      else let (a, r) := upto_slash t in (c :: a, r)
  end.

(** phrase_parse of the URL, files.cpp 152-168: host and path. *)
Definition split_url (u : bytes) : bytes * bytes :=
  match upto_slash u with
  | ([], _) => ([], [])
  | (h, r) => (h, filter (fun c => negb (is_space c)) (match skip r with c :: t => if c =? 47 then t else c :: t | [] => [] end))
  end.

(** The request, files.cpp 193-198. *)
Definition CRLF : bytes := [13; 10].
Definition request (host path : bytes) : bytes :=
  [71; 69; 84; 32; 47] ++ path ++ [32; 72; 84; 84; 80; 47; 49; 46; 48] ++ CRLF ++
  [72; 111; 115; 116; 58; 32] ++ host ++ CRLF ++
  [65; 99; 99; 101; 112; 116; 58; 32; 42; 47; 42] ++ CRLF ++
  [67; 111; 110; 110; 101; 99; 116; 105; 111; 110; 58; 32; 99; 108; 111; 115; 101] ++ CRLF ++ CRLF.

(** ** The reply *)

(** How the connection ends: the server closes it, or another error. *)
Inductive fin := FEof | FErr.

(** boost::asio::read into a buffer of [n] bytes, files.cpp 226: the bytes got, whether the
    buffer was filled, what is still to come; the stream comes in pieces, of which
    each receive gets at most one. *)
Fixpoint read_n (n : nat) (s : list bytes) : bytes * bool * list bytes :=
  match n with
  | O => ([], true, s)
  | S _ =>
      match s with
      | [] => ([], false, [])
      | p :: r =>
          if Nat.ltb n (List.length p) then (firstn n p, true, skipn n p :: r)
          else let '(b, full, r') := read_n (n - List.length p) r in (p ++ b, full, r')
      end
  end.

(** The loop of files.cpp 215-248.  [buf]: mBuffer; [size]: lSize; [blk]: mDefaultBufferSize.
    A read writes at [size]; the outcome ROver is a write past the end of the buffer.  The
    bytes are put over those that are there.  RLong: the loop has not ended in [fuel] steps. *)
Inductive rd := RGot (b : bytes) | RFail | ROver | RLong.
Definition put_at (buf : bytes) (i : nat) (b : bytes) : bytes := firstn i buf ++ b ++ skipn (i + List.length b) buf.
Fixpoint read_loop (blk fuel : nat) (buf : bytes) (size : nat) (s : list bytes) (e : fin) : rd :=
  match fuel with
  | O => RLong
  | S fuel =>
      if Nat.ltb (List.length buf) (size + blk) then ROver
      else
        let '(b, full, r) := read_n blk s in
        let buf := put_at buf size b in
        let size := (size + List.length b)%nat in
        if full then read_loop blk fuel (buf ++ repeat 0 blk) size r e
        else match e with
             | FEof => RGot (firstn size buf)
             | FErr => RFail
             end
  end.

(** HttpResponseType, HttpResponseGrammar.hpp 51-66: version (whether set) and status are not
    initialised (files.cpp 310). *)
Record resp := mkResp { p_method : bytes; p_version : bool; p_status : option Z; p_text : bytes; p_headers : bytes; p_content : bytes }.
Definition no_resp : resp := mkResp [] false None [] [] [].

(** Digits, for double_ and int_, HttpResponseGrammar.cpp 71. *)
Definition is_digit (c : N) : bool := (48 <=? c) && (c <=? 57).
Fixpoint digits (l : bytes) : bytes * bytes :=
  match l with
  | c :: t => if is_digit c then let (d, r) := digits t in (c :: d, r) else ([], l)
  | [] => ([], [])
  end.

(** qi::double_ (boost::spirit::qi::real_policies): what is left after the number, None if there is none. *)
Definition sign (l : bytes) : bool * bytes :=
  match l with c :: t => if c =? 45 then (true, t) else if c =? 43 then (false, t) else (false, l) | [] => (false, []) end.
Definition expo (l : bytes) : bytes :=
  match l with
  | c :: t =>
      if (c =? 101) || (c =? 69) then match digits (snd (sign t)) with ([], _) => l | (_, r) => r end else l
  | [] => []
  end.
Definition real (l : bytes) : option bytes :=
  let (d, r) := digits (snd (sign l)) in
  match r with
  | c :: t =>
      if c =? 46 then
        let (f, r') := digits t in
        match d, f with [], [] => None | _, _ => Some (expo r') end
      else match d with [] => None | _ => Some (expo r) end
  | [] => match d with [] => None | _ => Some [] end
  end.

(** qi::int_: a 32-bit number. *)
Definition value (d : bytes) : Z := fold_left (fun a c => (a * 10 + (Z.of_N c - 48))%Z) d 0%Z.
Definition int32 (l : bytes) : option (Z * bytes) :=
  let (neg, l') := sign l in
  match digits l' with
  | ([], _) => None
  | (d, r) =>
      let v := if neg then (- value d)%Z else value d in
      if ((-2147483648 <=? v) && (v <=? 2147483647))%Z then Some (v, r) else None
  end.

(** lexeme[ +( char_ - pat ) >> -lit(pat) ], HttpResponseGrammar.cpp 73-74: the text up to the
    first [pat], and what comes after [pat]. *)
Fixpoint upto (pat l : bytes) : bytes * bytes :=
  match l with
  | [] => ([], [])
  | c :: t => if starts pat l then ([], l) else let (a, r) := upto pat t in (c :: a, r)
  end.
Definition sequence (pat l : bytes) : option (bytes * bytes) :=
  match upto pat (skip l) with
  | ([], _) => None
  | (a, r) => Some (a, skipn (List.length pat) r)
  end.

(** The rule "response", HttpResponseGrammar.cpp 71.  The result of phrase_parse is not
    looked at (files.cpp 251): the attribute with what was parsed. *)
Definition response (l : bytes) : resp :=
  match upto_slash l with
  | ([], _) => no_resp
  | (m, r) =>
      let p := mkResp m false None [] [] [] in
      match skip r with
      | c :: r =>
          if c =? 47 then
            match real (skip r) with
            | None => p
            | Some r =>
                match int32 (skip r) with
                | None => mkResp m true None [] [] []
                | Some (st, r) =>
                    match sequence CRLF r with
                    | None => mkResp m true (Some st) [] [] []
                    | Some (t, r) =>
                        match sequence (CRLF ++ CRLF) r with
                        | None => mkResp m true (Some st) t [] []
                        | Some (h, r) => mkResp m true (Some st) t h (skip r)
                        end
                    end
                end
            end
          else p
      | [] => p
      end
  end.

(** ** HttpGet *)

(** What the network does: the name is found, a connection is made, the request can be
    written, the pieces of the reply and the end of the connection. *)
Record net := mkNet { n_name : bool; n_conn : bool; n_write : bool; n_pieces : list bytes; n_fin : fin }.

(** files.cpp 137-272: a response; false; an exception that is no uhal exception (resolve, line
    174, is outside the try blocks); a value that was never set is looked at, by the log
    (line 257) or by line 266; other undefined behaviour. *)
Inductive got := GTrue (p : resp) | GFalse | GThrow | GUnset | GBad.
(** aResponse.method != "HTTP", files.cpp 266. *)
Definition HTTP : bytes := [72; 84; 84; 80].
Fixpoint same (a b : bytes) : bool :=
  match a, b with
  | [], [] => true
  | x :: a, y :: b => (x =? y) && same a b
  | _, _ => false
  end.
(** [blk]: mDefaultBufferSize; [info]: Info messages are logged. *)
Definition http_get (blk : nat) (info : bool) (url : bytes) (n : net) : list bytes * got :=
  let (host, path) := split_url url in
  if negb (n_name n) then ([], GThrow)
  else if negb (n_conn n) then ([], GFalse)
  else if negb (n_write n) then ([request host path], GFalse)
  else
    ([request host path],
     match read_loop blk (S (List.length (concat (n_pieces n)) / blk + List.length (n_pieces n))) (repeat 0 blk) 0 (n_pieces n) (n_fin n) with
     | RFail => GFalse
     | ROver | RLong => GBad
     | RGot b =>
         let p := response b in
         if info && (negb (p_version p) || match p_status p with None => true | _ => false end) then GUnset
         else if same (p_method p) HTTP then
           match p_status p with
           | None => GUnset
           | Some v => if (v =? 200)%Z then GTrue p else GFalse
           end
         else GFalse
     end).

(** ** OpenFile *)

(** What is at a path: nothing, something that is no regular file, a file that cannot be
    opened, a file.  files.cpp 103-109, 286-290. *)
Inductive node := NNone | NOther | NShut | NFile (b : bytes).

(** boost::filesystem::absolute, files.cpp 100. *)
Definition absolute (p parent : bytes) : bytes := if starts [47] p then p else parent ++ [47] ++ p.

(** How OpenFile ends. *)
Inductive ended := EDone | ENotFound | ECannotOpen | EProtocol | EForeign | EUndefined.

(** ShellExpandFilenameExpr, files.cpp 87-134.  [words]: what wordexp gives for the expression;
    None if it fails, where nothing is said about the structure, which is read all the
    same (lines 92-97). *)
Definition shell_expand (fs : bytes -> node) (words : option (list bytes)) (parent : bytes) : option (list bytes) :=
  match words with
  | None => None
  | Some ws => Some (filter (fun p => match fs p with NShut | NFile _ => true | _ => false end) (map (fun w => absolute w parent) ws))
  end.

(** OpenFileLocal, files.cpp 279-305: the calls of the callback (path and content).  An empty
    file: lFile[0] of an empty vector (line 299). *)
Fixpoint open_each (fs : bytes -> node) (ps : list bytes) : list (bytes * bytes) * ended :=
  match ps with
  | [] => ([], EDone)
  | p :: r =>
      match fs p with
      | NFile [] => ([], EUndefined)
      | NFile b => let (c, e) := open_each fs r in ((p, b) :: c, e)
      | _ => ([], ECannotOpen)
      end
  end.
Definition open_local (fs : bytes -> node) (words : option (list bytes)) (parent : bytes) : list (bytes * bytes) * ended :=
  match shell_expand fs words parent with
  | None => ([], EUndefined)
  | Some [] => ([], ENotFound)
  | Some ps => open_each fs ps
  end.

(** OpenFileHttp, files.cpp 308-321. *)
Definition open_http (blk : nat) (info : bool) (url : bytes) (n : net) : list (bytes * bytes) * ended :=
  match snd (http_get blk info url n) with
  | GTrue p => ([(url, p_content p)], EDone)
  | GFalse => ([], ECannotOpen)
  | GThrow => ([], EForeign)
  | GUnset | GBad => ([], EUndefined)
  end.

(** OpenFile, files.cpp 324-341. *)
Definition open_file (blk : nat) (info : bool) (fs : bytes -> node) (n : net) (proto expr : bytes) (words : option (list bytes)) (parent : bytes) : list (bytes * bytes) * ended :=
  if same proto [102; 105; 108; 101] then open_local fs words parent
  else if same proto [104; 116; 116; 112] then open_http blk info expr n
  else ([], EProtocol).
