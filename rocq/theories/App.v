(** An application that reports through the client API over UDP: [Metrics] (metrics.py,
    extendedmetrics.py; ClientMetrics.v) whose connection is a [TwistedStatsDClient]
    (protocol.py:114-223; Client.v). *)
From Verif Require Import Base Num ClientMetrics Client.

Section app.
Context `{NA : Num}.
(** [Metrics(connection, namespace)], metrics.py:42-54, over
    [TwistedStatsDClient.create(host, port, ...)], protocol.py:146-177; [ap_net] is how the
    transport and the callbacks behave. *)
Record application := App {
  ap_env : cenv;
  ap_met : mconf;
  ap_cfg : ucfg;
  ap_net : unet;
  ap_is_ip : str -> bool;
  ap_host : str }.
(** The application calls the API; the resolver answers (protocol.py:207-216); the datagram
    protocol is started and stopped (protocol.py:41-47); the reactor makes a call scheduled by
    a write (protocol.py:87-111). *)
Inductive aevent := ACall (c : call) | AResolved (ip : str) | AStart (t : nat) | AStop | ATurn.
Definition ast : Type := cst * uclient.
Definition a_new (a : application) : ast := (cl_init, fst (uc_create (ap_cfg a) (ap_is_ip a) (ap_host a) uc_init)).
(** metric.py:64-67 calls [connection.write(data)], which is protocol.py:195-205 without a
    callback.  The texts a call writes are passed on when it returns; no method of the API
    looks at the connection in between. *)
Definition astep (a : application) (s : ast) (e : aevent) : ast :=
  let net x := (fst s, fst (ustep (ap_net a) (ap_cfg a) x (snd s))) in
  match e with
  | ACall c =>
      let cl := fst (do_call (ap_env a) (ap_met a) c (fst s)) in
      (cl, fold_left (fun u m => uc_write (ap_cfg a) (m, None) u) (skipn (length (cl_out (fst s))) (cl_out cl)) (snd s))
  | AResolved ip => net (EResolved ip)
  | AStart t => net (EConnect (Some t))
  | AStop => net EDisconnect
  | ATurn => net ETurn
  end.
Definition arun (a : application) (h : list aevent) : ast := fold_left (astep a) h (a_new a).
End app.
