(** The blocking UDP client of txstatsd/client.py:45-90. *)
From Verif Require Import Base.

(** The object, client.py:57-67: original_host, host, port, socket; sockets are
    numbered in the order they are made. *)
Record plain := Plain {
  pl_original : option str; pl_host : option str; pl_port : option Z; pl_socket : option nat }.

(** UdpStatsDClient.__init__, client.py:47-67.  [getaddrinfo] gives the addresses
    (client.py:61-63) or raises; [[0]] of an empty list is an IndexError. *)
Definition plain_new (getaddrinfo : str -> Z -> res (list (str * Z))) (host : option str) (port : option Z) : res plain :=
  match host, port with
  | Some h, Some p =>
      match getaddrinfo h p with
      | Ok ((h', p') :: _) => Ok (Plain host (Some h') (Some p') None)
      | Ok [] => Exn ValueError
      | Exn (TypeError | IndexError | SocketError) => Exn ValueError
      | Exn e => Exn e
      end
  | _, _ => Ok (Plain host host port None)
  end.

(** connect, disconnect, client.py:72-81.  Making a socket may fail; then the old one is
    kept.  [setblocking] and [close] are not modelled. *)
Definition plain_connect (sock : res nat) (p : plain) : plain * res unit :=
  match sock with
  | Ok k => (Plain (pl_original p) (pl_host p) (pl_port p) (Some k), Ok tt)
  | Exn e => (p, Exn e)
  end.
Definition plain_disconnect (p : plain) : plain :=
  Plain (pl_original p) (pl_host p) (pl_port p) None.

(** write, client.py:83-90: the call of sendto made, if any (socket, host, port, data),
    and the result; [sendto] is what socket.sendto does *)
Definition plain_write (sendto : res Z) (data : str) (p : plain) : option (nat * str * Z * str) * res (option Z) :=
  match pl_host p, pl_port p, pl_socket p with
  | Some h, Some pt, Some sk =>
      (Some (sk, h, pt, data),
       match sendto with
       | Ok n => Ok (Some n)
       | Exn SocketError => Ok None
       | Exn e => Exn e
       end)
  | _, _, _ => (None, Ok None)
  end.

(** __str__, client.py:69-70: "%s:%d" % (original_host, port) *)
Definition plain_str (p : plain) : res str :=
  match pl_port p with
  | None => Exn TypeError
  | Some n => Ok (match pl_original p with Some h => h | None => B "None" end ++ B ":" ++ show_Z n)
  end.

(** Histories: each call with what its surroundings do *)
Inductive pcall := PConnect (sock : res nat) | PDisconnect | PWrite (data : str) (sendto : res Z).
Definition pstep (p : plain) (c : pcall) : plain * (option (nat * str * Z * str) * res (option Z)) :=
  match c with
  | PConnect k => let '(p', r) := plain_connect k p in
                  (p', (None, match r with Ok _ => Ok None | Exn e => Exn e end))
  | PDisconnect => (plain_disconnect p, (None, Ok None))
  | PWrite d o => (p, plain_write o d p)
  end.
Fixpoint prun (p : plain) (cs : list pcall) : plain * list (option (nat * str * Z * str) * res (option Z)) :=
  match cs with
  | [] => (p, [])
  | c :: cs' => let '(p1, o) := pstep p c in let '(p2, os) := prun p1 cs' in (p2, o :: os)
  end.
