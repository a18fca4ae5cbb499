(** Model of the remote protocol (remote-processor/Message.cpp, RequestMessage.cpp, AnswerMessage.cpp,
    RemoteProcessorServer.cpp).  The peer is a list of bytes: all it sends before it closes the connection.  Little-endian
    hosts; writing to the socket succeeds; memory can be allocated. *)
From Coq Require Import List Arith ZArith Bool Ascii String.
From Verif Require Import Base BlackboardModel.
Import ListNotations.
Local Open Scope nat_scope.

(** ** Sending *)

(** Message.h:44-50 MsgType. *)
Definition msg_request : byte := ascii_of_nat 0.
Definition msg_success : byte := ascii_of_nat 1.
Definition msg_failure : byte := ascii_of_nat 2.

(** Message.h:147 SYNC_WORD. *)
Definition sync_word : Z := 47806%Z. (* 0xBABE *)

(** A length as a uint32_t. *)
Definition u32 (n : nat) : Z := (Z.of_nat n mod 2 ^ 32)%Z.

(** Message.cpp:86-95 writeString, with the conversion of the length to uint32_t. *)
Definition write_string (s : str) : list byte := le_encode 4 (u32 (List.length s)) ++ firstn (Z.to_nat (u32 (List.length s))) s.

(** Message.cpp:117-121 getStringSize. *)
Definition string_size (s : str) : nat := List.length s + 4.

(** Message.cpp:256-259 computeChecksum: a sum on uint8_t. *)
Definition checksum (id : byte) (data : list byte) : byte := fold_left (fun a b => byte_of (bval a + bval b)) data id.

(** Message.cpp:134-187 serialize, output: [size] bytes are allocated (zero), the strings are written from the start. *)
Definition send_message (id : byte) (size : nat) (written : list byte) : list byte :=
  let data := written ++ repeat zero (size - List.length written) in
  le_encode 2 sync_word ++ le_encode 4 (u32 (1 + size)) ++ [id] ++ data ++ [checksum id data].

(** A command and its arguments (RequestMessage.h). *)
Record request := Request { rq_command : str; rq_args : list str }.

(** RequestMessage.cpp:40 gacDelimiters. *)
Definition blanks : str := map ascii_of_nat [32; 9; 10; 11; 12; 13].

Fixpoint drop_blanks (s : str) : str :=
  match s with
  | [] => []
  | c :: r => if in_chars blanks c then drop_blanks r else s
  end.

(** RequestMessage.cpp:142-152 trim: blanks removed at the end, then at the start. *)
Definition trim (s : str) : str := drop_blanks (rev (drop_blanks (rev s))).

(** RequestMessage.cpp:63-66 addArgument. *)
Definition add_argument (r : request) (s : str) : request := Request (rq_command r) (rq_args r ++ [trim s]).

(** remote-process/main.cpp:105-112: the request made of a command and of arguments. *)
Definition make_request (command : str) (args : list str) : request := fold_left add_argument args (Request command []).

(** RequestMessage.cpp:94-104 fillDataToSend, 128-139 getDataSize. *)
Definition request_size (r : request) : nat := fold_left (fun n s => n + string_size s) (rq_args r) (string_size (rq_command r)).
Definition send_request (r : request) : list byte :=
  send_message msg_request (request_size r) (write_string (rq_command r) ++ flat_map write_string (rq_args r)).

(** An answer: its text and its status (AnswerMessage.cpp:37-40). *)
Record answer := Answer { an_text : str; an_ok : bool }.

(** AnswerMessage.cpp:68-79. *)
Definition send_answer (a : answer) : list byte :=
  send_message (if an_ok a then msg_success else msg_failure) (string_size (an_text a)) (write_string (an_text a)).

(** ** Receiving *)

(** asio::read of [n] bytes into a buffer of zeros: what is in the buffer and what remains to receive.  The code only looks
    whether no byte at all was read (the result of read), which is also the case of an empty buffer. *)
Definition read_field (n : nat) (s : list byte) : option (list byte * list byte) :=
  match n, s with
  | 0, _ => None
  | _, [] => None
  | _, _ => Some (firstn n s ++ repeat zero (n - List.length s), skipn n s)
  end.

(** Message.h:55-60 Result. *)
Inductive received (A : Type) :=
  | Received (a : A) (rest : list byte)
  | Disconnected
  | Rejected.
Arguments Received {A} a rest.
Arguments Disconnected {A}.
Arguments Rejected {A}.

(** Message.cpp:189-246 serialize, input, up to the checksum: the identifier and the data.  With a size of 0 the data would
    have 2^64 - 1 bytes: std::length_error, not caught. *)
Definition receive_message (s : list byte) : outcome (received (byte * list byte)) :=
  match read_field 2 s with
  | None => Ok Disconnected
  | Some (w, s1) =>
      if negb (le_decode w =? sync_word)%Z then Ok Rejected
      else match read_field 4 s1 with
      | None => Ok Rejected
      | Some (sz, s2) =>
          match read_field 1 s2 with
          | None => Ok Rejected
          | Some (id, s3) =>
              if (le_decode sz =? 0)%Z then Abort
              else match read_field (Z.to_nat (le_decode sz) - 1) s3 with
              | None => Ok Rejected
              | Some (data, s4) =>
                  match read_field 1 s4 with
                  | None => Ok Rejected
                  | Some (ck, s5) =>
                      let i := nth 0 id zero in
                      if char_eqb (nth 0 ck zero) (checksum i data) then Ok (Received (i, data) s5) else Ok Rejected
                  end
              end
          end
      end
  end.

(** Message.cpp:73-84 readData: the assertion is not there in a release build; past the end of the data this is undefined
    behaviour. *)
Definition read_data (n : nat) (data : list byte) : outcome (list byte * list byte) :=
  if n <=? List.length data then Ok (firstn n data, skipn n data) else UB.

(** Message.cpp:97-115 readString: the text up to the first NUL; [uiSize + 1] on uint32_t: the vector is empty when the length is
    2^32 - 1, and is then written past its end. *)
Definition read_string (data : list byte) : outcome (str * list byte) :=
  do x <- read_data 4 data;
  let n := le_decode (fst x) in
  if (n =? 2 ^ 32 - 1)%Z then UB
  else do z <- read_data (Z.to_nat n) (snd x);
       match c_string (fst z ++ [zero]) with
       | Some s => Ok (s, snd z)
       | None => UB
       end.

(** RequestMessage.cpp:107-125 collectReceivedData. *)
Fixpoint read_arguments (fuel : nat) (r : request) (data : list byte) : outcome request :=
  match fuel with
  | 0 => Ok r
  | S f => match data with
           | [] => Ok r
           | _ => do x <- read_string data; read_arguments f (add_argument r (fst x)) (snd x)
           end
  end.
Definition collect_request (data : list byte) : outcome request :=
  do x <- read_string data;
  read_arguments (List.length data) (Request (trim (fst x)) []) (snd x).

(** Message.cpp:130-253 serialize, input, for a request. *)
Definition receive_request (s : list byte) : outcome (received request) :=
  do r <- receive_message s;
  match r with
  | Received (_, data) rest => do q <- collect_request data; Ok (Received q rest)
  | Disconnected => Ok Disconnected
  | Rejected => Ok Rejected
  end.

(** The same for an answer; AnswerMessage.cpp:58-65 success, 82-90 collectReceivedData. *)
Definition receive_answer (s : list byte) : outcome (received answer) :=
  do r <- receive_message s;
  match r with
  | Received (id, data) rest => do x <- read_string data; Ok (Received (Answer (fst x) (char_eqb id msg_success)) rest)
  | Disconnected => Ok Disconnected
  | Rejected => Ok Rejected
  end.

(** ** The server *)

(** RemoteProcessorServer.cpp:118-168 handleNewConnection: the requests of one client, each answered, until the connection is
    closed or a message is rejected.  [process]: IRemoteCommandHandler::remoteCommandProcess.  Result: the state after, and the
    bytes sent back.  The fuel is the number of bytes received: each request takes some. *)
Fixpoint serve_loop {S : Type} (process : S -> request -> outcome (answer * S)) (fuel : nat) (st : S) (s : list byte) : outcome (S * list byte) :=
  match fuel with
  | 0 => Ok (st, [])
  | Datatypes.S f =>
      do r <- receive_request s;
      match r with
      | Received q rest =>
          do x <- process st q;
          do z <- serve_loop process f (snd x) rest;
          Ok (fst z, send_answer (fst x) ++ snd z)
      | Disconnected | Rejected => Ok (st, [])
      end
  end.
Definition serve {S : Type} (process : S -> request -> outcome (answer * S)) (st : S) (s : list byte) : outcome (S * list byte) :=
  serve_loop process (List.length s) st s.
