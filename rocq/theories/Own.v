(** The daemon's own statistics: ReportingService (report.py:37-92) reporting through
    [metrics.gauge] (service.py:312-334), where [metrics] writes to an InternalClient
    (client.py:93-105; service.py:289-299) and so to the router of the same daemon. *)
From Verif Require Import Base Num Env Metrics Gen Processor Router Server Daemon ClientMetrics.

Section own.
Context `{NN : Num} {S : Type} (G : engine).
Context (inner : str -> str -> str -> list str -> M S unit) (fl : gen S) (rs : list (rule G)).
Context (cfg : mon) (max : nat) (closes : bool) (refuses : nat -> dp -> option exn).
(** [instance]: the instance name given to ReportingService, service.py:308;
    [ext]: ExtendedMetrics (service.py:299) rather than Metrics (service.py:292) *)
Context (CE : cenv) (ext : bool) (instance : str).

(** [Metrics(connection)], [ExtendedMetrics(connection)]: no namespace,
    metrics.py:42, extendedmetrics.py:29, service.py:292, 299 *)
Definition own_conf : mconf := MConf ext true (Some []).

Record whole := Wh { o_client : cst; o_daemon : daemon (S := S); o_logged : list exn }.
Definition o_new (d : daemon (S := S)) : whole := Wh cl_init d [].

(** [metrics.gauge(name, value)] (metrics.py:87-95) with an InternalClient: what the metric
    object writes goes to [router.process] at once (client.py:103-105), whose exception
    leaves the call.  ([Metric.write] is the last thing the call does.)
    The router and what is behind it are those of the daemon: the effect on the daemon is
    that of its event [DInternal]. *)
Definition own_gauge (name : str) (v : val) (c : cst) (d : daemon (S := S)) : cst * daemon (S := S) * res unit :=
  let '(c1, r) := m_gauge CE own_conf (Some name) v (VInt 1) c in
  match drop (length (cl_out c)) (cl_out c1) with
  | [] => (c1, d, r)
  | m :: _ =>
      (c1, dstep G inner fl rs cfg max closes refuses d (DInternal m), snd (r_process G inner rs m (v_proc (d_srv d))))
  end.
(** report.py:64-69 [report_metrics].  The order of the items is that of a python
    dictionary: any order. *)
Fixpoint own_items (items : list (str * val)) (c : cst) (d : daemon (S := S)) : cst * daemon (S := S) * res unit :=
  match items with
  | [] => (c, d, Ok tt)
  | (name, v) :: rest =>
      let name := if nonempty instance then instance ++ B "." ++ name else name in
      match own_gauge name v c d with
      | (c1, d1, Ok _) => own_items rest c1 d1
      | (c1, d1, Exn e) => (c1, d1, Exn e)
      end
  end.
(** one call of a scheduled function with outcome [o]; a failure of the function or of the
    reporting is logged, report.py:71-79 *)
Definition own_report (o : res (list (str * val))) (w : whole) : whole :=
  match o with
  | Exn e => Wh (o_client w) (o_daemon w) (o_logged w ++ [e])
  | Ok items =>
      let '(c, d, r) := own_items items (o_client w) (o_daemon w) in
      Wh c d (o_logged w ++ match r with Ok _ => [] | Exn e => [e] end)
  end.

(** What can happen: the events of the daemon, reports of its own statistics (the carbon
    client's at every flush interval, reactor and process statistics every 60 s,
    service.py:312-334), and the reactor inspector's gauge (report.py:157, 165; here taken
    to run in the reactor's thread). *)
Inductive oevent :=
| ODaemon (e : devent)
| OReport (o : res (list (str * val)))
| ODelay (v : val).
Definition ostep (w : whole) (e : oevent) : whole :=
  match e with
  | ODaemon e => Wh (o_client w) (dstep G inner fl rs cfg max closes refuses (o_daemon w) e) (o_logged w)
  | OReport o => own_report o w
  | ODelay v => let '(c, d, _) := own_gauge (B "delay") v (o_client w) (o_daemon w) in Wh c d (o_logged w)
  end.
Definition orun (w : whole) (es : list oevent) : whole := fold_left ostep es w.
End own.
