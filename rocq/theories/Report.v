(** txstatsd/report.py: the reporting service and the reactor inspector. *)
From Verif Require Import Base.

(** ** ReportingService, report.py:37-92 *)
Section service.
Context {V : Type}.
(** what a scheduled function does when called.  Simplification: it returns at
    once, as all functions of process.py do; functions returning an unfired
    Deferred are in Slow.v. *)
Notation outcome := (res (list (str * V))).
(** [instance_name]; [rejects]: the exception the report function raises for an item, if any *)
Context (instance : str) (rejects : str -> V -> option exn).

(** twisted's LoopingCall around [wrapped] or the bare function: [t_on] is its [running] *)
Record task := Task { t_wrapped : bool; t_on : bool }.
Record svc := Svc {
  s_running : bool;                   (* Service.running *)
  s_tasks : list task;                (* self.tasks *)
  s_calls : list nat;                 (* which task's function was called, in order *)
  s_reports : list (str * V);         (* accepted by report_function *)
  s_logged : list exn }.              (* log.err *)
Definition svc_init : svc := Svc false [] [] [] [].

(** report.py:64-69 with the errback of 76-77: the items reported and the failure *)
Fixpoint report_metrics (items : list (str * V)) : list (str * V) * option exn :=
  match items with
  | [] => ([], None)
  | (name, value) :: rest =>
      let name := if nonempty instance then instance ++ B "." ++ name else name in
      match rejects name value with
      | Some e => ([], Some e)
      | None => let '(r, e) := report_metrics rest in ((name, value) :: r, e)
      end
  end.
(** LoopingCall.__call__: calls the function; a failure ends the loop
    (twisted/internet/task.py), and the wrapper never fails (report.py:71-79) *)
Definition call_task (i : nat) (o : outcome) (s : svc) : svc :=
  match s_tasks s !! i with
  | None => s
  | Some t =>
      let calls := s_calls s ++ [i] in
      if t_wrapped t then
        match o with
        | Ok items =>
            let '(r, e) := report_metrics items in
            Svc (s_running s) (s_tasks s) calls (s_reports s ++ r) (s_logged s ++ match e with Some e => [e] | None => [] end)
        | Exn e => Svc (s_running s) (s_tasks s) calls (s_reports s) (s_logged s ++ [e])
        end
      else
        match o with
        | Ok _ => Svc (s_running s) (s_tasks s) calls (s_reports s) (s_logged s)
        | Exn _ => Svc (s_running s) (<[i := Task false false]> (s_tasks s)) calls (s_reports s) (s_logged s)
        end
  end.
(** LoopingCall.start: asserts that it is not running *)
Fixpoint start_all (ts : list task) : list task * res unit :=
  match ts with
  | [] => ([], Ok tt)
  | t :: rest =>
      if t_on t then (t :: rest, Exn AssertionError)
      else let '(r, x) := start_all rest in (Task (t_wrapped t) true :: r, x)
  end.
(** LoopingCall.stop: asserts that it is running *)
Fixpoint stop_all (ts : list task) : list task * res unit :=
  match ts with
  | [] => ([], Ok tt)
  | t :: rest =>
      if t_on t then let '(r, x) := stop_all rest in (Task (t_wrapped t) false :: r, x)
      else (t :: rest, Exn AssertionError)
  end.
Definition set_tasks (ts : list task) (s : svc) : svc := Svc (s_running s) ts (s_calls s) (s_reports s) (s_logged s).
Definition set_running (b : bool) (s : svc) : svc := Svc b (s_tasks s) (s_calls s) (s_reports s) (s_logged s).

Inductive sevent : Type :=
| ESchedule (wrapped : bool) (o : outcome)   (* [o]: the outcome if called at once *)
| EStart | EStop
| ETick (i : nat) (o : outcome).             (* the interval of task [i] has passed *)
Definition sstep (e : sevent) (s : svc) : svc * res unit :=
  match e with
  | ESchedule w o =>                                           (* report.py:44-61 *)
      let i := length (s_tasks s) in
      let s1 := set_tasks (s_tasks s ++ [Task w false]) s in
      if s_running s then
        (call_task i o (set_tasks (s_tasks s ++ [Task w true]) s), Ok tt)
      else (s1, Ok tt)
  | EStart =>                                                  (* report.py:82-85 *)
      let s1 := set_running true s in
      let '(ts, r) := start_all (s_tasks s1) in (set_tasks ts s1, r)
  | EStop =>                                                   (* report.py:87-90 *)
      let '(ts, r) := stop_all (s_tasks s) in
      match r with
      | Ok _ => (set_running false (set_tasks ts s), Ok tt)
      | Exn e => (set_tasks ts s, Exn e)
      end
  | ETick i o =>
      match s_tasks s !! i with
      | Some t => if t_on t then (call_task i o s, Ok tt) else (s, Ok tt)
      | None => (s, Ok tt)
      end
  end.
Fixpoint sruns (h : list sevent) (s : svc) : svc * list (res unit) :=
  match h with
  | [] => (s, [])
  | e :: h' => let '(s1, r) := sstep e s in let '(s2, rs) := sruns h' s1 in (s2, r :: rs)
  end.
End service.
Arguments svc : clear implicits.
Arguments sevent : clear implicits.

(** ** ReactorInspector, report.py:95-193.  Times are any type with a difference. *)
Section inspector.
Context {T : Type} (minus : T -> T -> T).
Inductive verdict : Type := VUnresponsive | VLate (got : Z) | VOk.
(** where the thread is: not started, at the loop test, asleep, ended, killed by the assertion *)
Inductive phase : Type := PNew | PTest | PSleep | PEnd | PFail.
Record insp := Insp {
  i_started : bool;                    (* self.running *)
  i_stopped : bool;                    (* self.stopped *)
  i_phase : phase;
  i_msg : Z;                           (* msg_id *)
  i_oldest : option T;                 (* oldest_pending_request_ts *)
  i_pending : list (Z * T);            (* tasks given to reactor_call and not yet run: msg_id, tini *)
  i_queue : list (Z * T * T);          (* self.queue, oldest first *)
  i_out : list (Z * verdict * T) }.    (* msg_id, log message and gauge "delay" *)
Definition insp_init : insp := Insp false false PNew 0 None [] [] [].
Inductive ievent : Type :=
| IStart (now : T)        (* start() report.py:113-118, then run() up to the loop; [now]: 147 *)
| IStop                   (* stop() report.py:120-123 *)
| IProbe (now : T)        (* report.py:148-153: the loop test, the probe and the start of the sleep *)
| IAnswer (j : nat) (now : T)  (* the reactor runs the [j]-th waiting task, report.py:149-151 *)
| IWake (now : T).        (* report.py:155-190: the end of the sleep.  Simplification: one step.  Only this
                             thread takes from the queue, so an answer arriving while the queue is
                             being cleaned has the effect of one arriving before. *)
Definition istep (e : ievent) (s : insp) : insp :=
  match e with
  | IStart now =>
      if i_started s then s
      else Insp true (i_stopped s) PTest 0 (Some now) (i_pending s) (i_queue s) (i_out s)
  | IStop => Insp (i_started s) true (i_phase s) (i_msg s) (i_oldest s) (i_pending s) (i_queue s) (i_out s)
  | IProbe now =>
      match i_phase s with
      | PTest =>
          if i_stopped s
          then Insp (i_started s) (i_stopped s) PEnd (i_msg s) (i_oldest s) (i_pending s) (i_queue s) (i_out s)
          else Insp (i_started s) (i_stopped s) PSleep (i_msg s) (i_oldest s) (i_pending s ++ [(i_msg s, now)]) (i_queue s) (i_out s)
      | _ => s
      end
  | IAnswer j now =>
      match i_pending s !! j with
      | Some (id, tini) =>
          Insp (i_started s) (i_stopped s) (i_phase s) (i_msg s) (i_oldest s) (delete j (i_pending s))
               (i_queue s ++ [(id, tini, now)]) (i_out s)
      | None => s
      end
  | IWake now =>
      match i_phase s, i_oldest s with
      | PSleep, Some oldest =>
          match i_queue s with
          | [] =>
              Insp (i_started s) (i_stopped s) PTest (i_msg s + 1) (Some oldest) (i_pending s) []
                   (i_out s ++ [(i_msg s, VUnresponsive, minus now oldest)])
          | (id, tini, tsent) :: rest =>
              let delay := minus tsent tini in
              if id <? i_msg s then
                Insp (i_started s) (i_stopped s) PTest (i_msg s + 1) (Some now) (i_pending s) []
                     (i_out s ++ [(i_msg s, VLate id, delay)])
              else if i_msg s =? id then
                Insp (i_started s) (i_stopped s) PTest (i_msg s + 1) (Some now) (i_pending s) rest
                     (i_out s ++ [(i_msg s, VOk, delay)])
              else                                            (* assert msg_id == id_sent; the gauge was sent *)
                Insp (i_started s) (i_stopped s) PFail (i_msg s + 1) (Some oldest) (i_pending s) rest
                     (i_out s ++ [(i_msg s, VOk, delay)])
          end
      | _, _ => s
      end
  end.
Definition iruns (h : list ievent) : insp := fold_left (fun s e => istep e s) h insp_init.
End inspector.
