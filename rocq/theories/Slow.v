(** txstatsd/report.py, ReportingService with a clock, and functions that may return a
    Deferred that has not fired yet. *)
From Verif Require Import Base Report.

(** twisted's LoopingCall (twisted/internet/task.py), a dependency; report.py:54-61, 82-90 use
    its constructor, clock, start and stop.  Simplification: times and intervals are
    integers, in any unit (floats in the code). *)
Record loop := Loop {
  l_on : bool;                          (* running *)
  l_call : option nat;                  (* call: the delayed call it holds *)
  l_start : Z;                          (* starttime *)
  l_expect : Z }.                       (* _expectNextCallAt *)
Definition loop_new : loop := Loop false None 0 0.

(** one call of a task's function: the task, when its loop had been started, when the call was
    due and when it was made *)
Record tcall := TCall { a_task : nat; a_start : Z; a_due : Z; a_at : Z }.

Section slow.
Context {V : Type} (instance : str) (rejects : str -> V -> option exn).
Notation outcome := (res (list (str * V))).

(** report.py:54-59: an element of self.tasks *)
Record stask := STask { t_wrap : bool; t_int : Z; t_loop : loop }.
(** the service and the reactor *)
Record world := World {
  y_now : Z;                            (* clock.seconds() *)
  y_running : bool;                     (* Service.running *)
  y_tasks : list stask;
  y_due : list (nat * nat * Z);         (* delayed calls of the reactor: identity, task, time *)
  y_next : nat;                         (* the identity of the next delayed call *)
  y_open : list nat;                    (* tasks whose function returned a Deferred that has not fired *)
  y_calls : list tcall;                 (* calls of the functions, in order *)
  y_reports : list (str * V);           (* accepted by report_function *)
  y_logged : list exn }.                (* log.err *)
Definition world_init (now : Z) : world := World now false [] [] 0 [] [] [] [].
Definition set_loop (i : nat) (l : loop) (w : world) : world :=
  World (y_now w) (y_running w) (alter (fun t => STask (t_wrap t) (t_int t) l) i (y_tasks w)) (y_due w) (y_next w) (y_open w)
        (y_calls w) (y_reports w) (y_logged w).
Definition set_due (due : list (nat * nat * Z)) (w : world) : world :=
  World (y_now w) (y_running w) (y_tasks w) due (y_next w) (y_open w) (y_calls w) (y_reports w) (y_logged w).
Definition set_open (open : list nat) (w : world) : world :=
  World (y_now w) (y_running w) (y_tasks w) (y_due w) (y_next w) open (y_calls w) (y_reports w) (y_logged w).
Definition set_on (b : bool) (w : world) : world :=
  World (y_now w) b (y_tasks w) (y_due w) (y_next w) (y_open w) (y_calls w) (y_reports w) (y_logged w).
Definition add_call (c : tcall) (w : world) : world :=
  World (y_now w) (y_running w) (y_tasks w) (y_due w) (y_next w) (y_open w) (y_calls w ++ [c]) (y_reports w) (y_logged w).
Definition add_reports (r : list (str * V)) (e : list exn) (w : world) : world :=
  World (y_now w) (y_running w) (y_tasks w) (y_due w) (y_next w) (y_open w) (y_calls w) (y_reports w ++ r) (y_logged w ++ e).
(** clock.callLater(at - now, task) *)
Definition later (i : nat) (at_ : Z) (w : world) : world :=
  World (y_now w) (y_running w) (y_tasks w) (y_due w ++ [(y_next w, i, at_)]) (S (y_next w)) (y_open w) (y_calls w) (y_reports w) (y_logged w).

(** LoopingCall._reschedule *)
Definition next_time (now interval expect : Z) : Z :=
  let until := (expect - now) mod interval in
  let t := Z.max (expect + interval) (now + until) in
  if t =? now then t + interval else t.
Definition reschedule (i : nat) (t : stask) (w : world) : world :=
  let l := t_loop t in
  if t_int t =? 0 then later i (y_now w) (set_loop i (Loop (l_on l) (Some (y_next w)) (l_start l) (l_expect l)) w)
  else let n := next_time (y_now w) (t_int t) (l_expect l) in
       later i n (set_loop i (Loop (l_on l) (Some (y_next w)) (l_start l) n) w).
(** the callbacks of LoopingCall.__call__; the Deferred of LoopingCall.start, which nobody
    uses, is not modelled *)
Definition call_back (i : nat) (w : world) : world :=
  match y_tasks w !! i with
  | Some t => if l_on (t_loop t) then reschedule i t w else w
  | None => w
  end.
Definition err_back (i : nat) (w : world) : world :=
  match y_tasks w !! i with
  | Some t => let l := t_loop t in set_loop i (Loop false (l_call l) (l_start l) (l_expect l)) w
  | None => w
  end.
(** the function has its result: report.py:64-79 if wrapped, then the callbacks *)
Definition finish (i : nat) (o : outcome) (w : world) : world :=
  match y_tasks w !! i with
  | None => w
  | Some t =>
      if t_wrap t then
        call_back i (match o with
                     | Ok items => let '(r, e) := report_metrics instance rejects items in
                                   add_reports r match e with Some e => [e] | None => [] end w
                     | Exn e => add_reports [] [e] w
                     end)
      else match o with Ok _ => call_back i w | Exn _ => err_back i w end
  end.
(** LoopingCall.__call__; [None]: the function returned a Deferred that has not fired *)
Definition call (i : nat) (due : Z) (o : option outcome) (w : world) : world :=
  match y_tasks w !! i with
  | None => w
  | Some t =>
      let l := t_loop t in
      let w1 := add_call (TCall i (l_start l) due (y_now w)) (set_loop i (Loop (l_on l) None (l_start l) (l_expect l)) w) in
      match o with Some r => finish i r w1 | None => set_open (y_open w1 ++ [i]) w1 end
  end.
(** LoopingCall.start(interval, now): [first] is [Some] when [now] is true *)
Definition start (i : nat) (first : option (option outcome)) (w : world) : world * res unit :=
  match y_tasks w !! i with
  | None => (w, Ok tt)
  | Some t =>
      if l_on (t_loop t) then (w, Exn AssertionError)
      else if t_int t <? 0 then (w, Exn ValueError)
      else let l := Loop true (l_call (t_loop t)) (y_now w) (y_now w) in
           let w1 := set_loop i l w in
           (match first with
            | Some o => call i (y_now w) o w1
            | None => reschedule i (STask (t_wrap t) (t_int t) l) w1
            end, Ok tt)
  end.
(** LoopingCall.stop *)
Definition stop (i : nat) (w : world) : world * res unit :=
  match y_tasks w !! i with
  | None => (w, Ok tt)
  | Some t =>
      let l := t_loop t in
      if l_on l then
        (match l_call l with
         | Some id => set_due (List.filter (fun d => negb (Nat.eqb (fst (fst d)) id)) (y_due w))
                        (set_loop i (Loop false None (l_start l) (l_expect l)) w)
         | None => set_loop i (Loop false None (l_start l) (l_expect l)) w
         end, Ok tt)
      else (w, Exn AssertionError)
  end.
(** the loops over self.tasks of startService and stopService *)
Fixpoint each (f : nat -> world -> world * res unit) (is : list nat) (w : world) : world * res unit :=
  match is with
  | [] => (w, Ok tt)
  | i :: is' => match f i w with (w1, Ok _) => each f is' w1 | (w1, Exn e) => (w1, Exn e) end
  end.

Inductive wevent :=
| WSchedule (wrapped : bool) (interval : Z) (o : option outcome)  (* schedule(); [o]: what the function returns if called at once *)
| WStart | WStop
| WWait (dt : Z)                                                  (* time passes *)
| WFire (j : nat) (o : option outcome)                            (* the reactor makes the [j]-th delayed call, if it is due *)
| WResult (j : nat) (o : outcome).                                (* the [j]-th waiting Deferred fires *)
Definition wstep (e : wevent) (w : world) : world * res unit :=
  match e with
  | WSchedule wr interval o =>                                    (* report.py:44-61 *)
      let i := length (y_tasks w) in
      let w1 := World (y_now w) (y_running w) (y_tasks w ++ [STask wr interval loop_new]) (y_due w) (y_next w) (y_open w)
                      (y_calls w) (y_reports w) (y_logged w) in
      if y_running w then start i (Some o) w1 else (w1, Ok tt)
  | WStart => let w1 := set_on true w in each (fun i => start i None) (seq 0 (length (y_tasks w))) w1   (* report.py:82-85 *)
  | WStop =>                                                      (* report.py:87-90 *)
      match each stop (seq 0 (length (y_tasks w))) w with
      | (w1, Ok _) => (set_on false w1, Ok tt)
      | (w1, Exn e) => (w1, Exn e)
      end
  | WWait dt => (World (y_now w + Z.max 0 dt) (y_running w) (y_tasks w) (y_due w) (y_next w) (y_open w) (y_calls w) (y_reports w) (y_logged w), Ok tt)
  | WFire j o =>
      match y_due w !! j with
      | Some (id, i, t) => if t <=? y_now w then (call i t o (set_due (delete j (y_due w)) w), Ok tt) else (w, Ok tt)
      | None => (w, Ok tt)
      end
  | WResult j o =>
      match y_open w !! j with
      | Some i => (finish i o (set_open (delete j (y_open w)) w), Ok tt)
      | None => (w, Ok tt)
      end
  end.
Definition wrun (h : list wevent) (w : world) : world := fold_left (fun w e => fst (wstep e w)) h w.
End slow.
Arguments world : clear implicits.
Arguments wevent : clear implicits.
