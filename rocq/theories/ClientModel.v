(** Model of the command line client (remote-process/main.cpp). *)
From Coq Require Import List Arith ZArith Bool Ascii String.
From Verif Require Import Base BlackboardModel RemoteModel.
Import ListNotations.
Local Open Scope nat_scope.

(** What a program leaves: its exit code, its output and its error output. *)
Record exit := Exit { ex_code : Z; ex_out : str; ex_err : str }.

Definition new_line : str := [ascii_of_nat 10].

(** What is outside: the connection to a host and a port (the text of its failure, if it fails), and the text of a failure of
    reception.  Sending succeeds (RemoteModel). *)
Record network := Network { nw_refuses : str -> str -> option str; nw_trouble : str }.

(** main.cpp:75-86: the usage. *)
Definition client_usage (program : str) : str :=
  lit "Missing arguments" ++ new_line ++ lit "Usage: " ++ new_line ++ lit "Send a single command:" ++ new_line
  ++ ascii_of_nat 9 :: program ++ lit " hostname port command [argument[s]]" ++ new_line.

(** main.cpp:99-102 and 53-57. *)
Definition refused_text (host port what : str) : str := lit "Connection to '" ++ host ++ lit ":" ++ port ++ lit "' failed: " ++ what ++ new_line.
Definition trouble_text (what : str) : str := lit "Unable to received answer from target: " ++ what ++ new_line.

(** main.cpp:42-71 sendAndDisplayCommand, after the request is sent: [s] is what the peer sends back.  Result: the exit code of
    main.cpp:114-119 with what is displayed. *)
Definition display (nw : network) (s : list byte) : outcome exit :=
  do r <- receive_answer s;
  Ok (match r with
      | Received a _ => if an_ok a then Exit 0 (an_text a ++ new_line) [] else Exit 1 [] (an_text a ++ new_line)
      | Disconnected | Rejected => Exit 1 [] (trouble_text (nw_trouble nw))
      end).

(** main.cpp:76-120 main.  [argv]: the name of the program and its arguments.  [peer]: what the other side does with what it
    receives until the connection is closed: its state after, and what it sends.  Without even the name of the program, a null
    pointer is displayed. *)
Definition client {S : Type} (nw : network) (peer : S -> list byte -> outcome (S * list byte)) (st : S) (argv : list str) : outcome (exit * S) :=
  match argv with
  | [] => UB
  | _ :: host :: port :: command :: args =>
      match nw_refuses nw host port with
      | Some what => Ok (Exit 1 [] (refused_text host port what), st)
      | None =>
          do x <- peer st (send_request (make_request command args));
          do e <- display nw (snd x);
          Ok (e, fst x)
      end
  | program :: _ => Ok (Exit 1 [] (client_usage program), st)
  end.

(** A shell script: the client run several times, one after the other; the exits in order. *)
Fixpoint clients {S : Type} (nw : network) (peer : S -> list byte -> outcome (S * list byte)) (st : S) (lines : list (list str)) : outcome (list exit * S) :=
  match lines with
  | [] => Ok ([], st)
  | l :: r => do x <- client nw peer st l; do z <- clients nw peer (snd x) r; Ok (fst x :: fst z, snd z)
  end.
