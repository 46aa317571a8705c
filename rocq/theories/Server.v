(** txstatsd/server/protocol.py: the UDP and TCP servers, with the parts of Twisted
    they sit on (the reactor's pending calls, LineReceiver). *)
From Verif Require Import Base.

(** the monitor message and its response, protocol.py:35-39, 60-64 *)
Record mon := Mon { m_message : str; m_response : str }.

(** ** State: the replies written to the transport (with the address they go to), the
    calls of processor.process scheduled with callLater(0, …) and not yet run, the
    processor and the outcome of each call made (the reactor logs what is raised and
    goes on). *)
Section server.
Context {S : Type} (process : str -> M S unit) (cfg : mon).
Record server := Srv { v_replies : list (str * str); v_pending : list str; v_proc : S; v_runs : list (str * res unit) }.
Definition srv_new (p : S) : server := Srv [] [] p [].

Definition reply (addr : str) (s : server) : server :=
  Srv (v_replies s ++ [(addr, m_response cfg)]) (v_pending s) (v_proc s) (v_runs s).
Definition later (data : str) (s : server) : server :=
  Srv (v_replies s) (v_pending s ++ [data]) (v_proc s) (v_runs s).
(** datagramReceived, protocol.py:41-49; lineReceived, protocol.py:66-73.  The result
    is what the method returns, as a truth value: transport.write returns None,
    callLater returns an object. *)
Definition received (addr data : str) (s : server) : server * bool :=
  if str_eqb data (m_message cfg) then (reply addr s, false) else (later data s, true).

(** the reactor runs pending call number [i]; the order of calls due at the same time
    is not specified *)
Definition run_call (i : nat) (s : server) : server :=
  match v_pending s !! i with
  | None => s
  | Some data => let '(p, r) := process data (v_proc s) in
                 Srv (v_replies s) (delete i (v_pending s)) p (v_runs s ++ [(data, r)])
  end.

(** ** LineReceiver.dataReceived (Twisted).  [max] is MAX_LENGTH; [closes] says whether
    a true result of lineReceived ends the connection (Twisted returns it from
    dataReceived, and the reactor disconnects).  [split_on2] cuts at every CRLF, which
    is what the loop of [split(delimiter, 1)] does. *)
Record conn := Conn { k_addr : str; k_buf : str; k_open : bool }.
Definition conn_new (addr : str) : conn := Conn addr [] true.
Context (max : nat) (closes : bool).
Fixpoint line_loop (addr : str) (pieces : list str) (s : server) : server * str * bool :=
  match pieces with
  | [] => (s, [], true)                                            (* unreachable *)
  | [rest] => if (max <? length rest)%nat then (s, [], false) else (s, rest, true)
  | line :: pieces' =>
      if (max <? length line)%nat then (s, [], false)               (* lineLengthExceeded *)
      else let '(s', why) := received addr line s in
           if closes && why then (s', join CRLF pieces', false)
           else line_loop addr pieces' s'
  end.
Definition data_received (data : str) (k : conn) (s : server) : conn * server :=
  if k_open k then
    let '(s', buf, o) := line_loop (k_addr k) (split_on2 c_cr c_nl (k_buf k ++ data)) s in
    (Conn (k_addr k) buf o, s')
  else (k, s).
End server.
Arguments Srv {S}. Arguments v_replies {S}. Arguments v_pending {S}. Arguments v_proc {S}. Arguments v_runs {S}.

(** ** Whole histories: datagrams, chunks of TCP connections (any interleaving), and
    the reactor running pending calls *)
Section history.
Context {S : Type} (process : str -> M S unit) (cfg : mon) (max : nat) (closes : bool).
Inductive sevent := SDatagram (addr data : str) | SChunk (i : nat) (data : str) | SRun (i : nat).
Definition sstep (x : list conn * @server S) (e : sevent) : list conn * @server S :=
  let '(ks, s) := x in
  match e with
  | SDatagram addr data => (ks, fst (received cfg addr data s))
  | SChunk i data => match ks !! i with
                     | None => (ks, s)
                     | Some k => let '(k', s') := data_received cfg max closes data k s in (<[i := k']> ks, s')
                     end
  | SRun i => (ks, run_call process i s)
  end.
Definition srun (x : list conn * @server S) (es : list sevent) : list conn * @server S := fold_left sstep es x.
End history.
