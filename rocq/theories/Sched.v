(** Everything that can happen to a compliant processor while the service runs:
    lines arrive and any number of flushes are started, resumed and abandoned in
    any order.  service.py:218-241 drives each flush from a Cooperator, one item
    per step; a flush that raises is finished. *)
From Verif Require Import Base Num Env Metrics Gen Processor ReceiveFacts.

Section sched.
Context `{NN : Num} (E : env) (plugins : list factory).
Notation C := (mp_cls E plugins).

Inductive event :=
| Recv (m : str)                        (* processor.process(m) *)
| Start (interval percent : Z)          (* processor.flush(interval, percent): nothing runs yet *)
| Resume (i : nat)                      (* next() on the i-th unfinished flush *)
| Drop (i : nat).                       (* the i-th unfinished flush is abandoned *)

Record sys := Sys {
  y_st : mst;
  y_live : list (gen mst);              (* unfinished flushes *)
  y_gone : list (gen mst);              (* abandoned ones *)
  y_out : list dp;                      (* everything emitted so far, in order *)
  y_exn : list exn }.                   (* how flushes failed *)
Definition sys_init : sys := Sys mp_init [] [] [] [].

Definition sys_step (y : sys) (e : event) : sys :=
  match e with
  | Recv m => Sys (receive E plugins m (y_st y)) (y_live y) (y_gone y) (y_out y) (y_exn y)
  | Start i p => Sys (y_st y) (y_live y ++ [flush E C i p]) (y_gone y) (y_out y) (y_exn y)
  | Resume i =>
      match y_live y !! i with
      | None => y
      | Some g =>
          match gnext g (y_st y) with
          | (s', Yielded d g') => Sys s' (<[i := g']> (y_live y)) (y_gone y) (y_out y ++ [d]) (y_exn y)
          | (s', Finished) => Sys s' (delete i (y_live y)) (y_gone y) (y_out y) (y_exn y)
          | (s', Raised x) => Sys s' (delete i (y_live y)) (y_gone y) (y_out y) (y_exn y ++ [x])
          end
      end
  | Drop i =>
      match y_live y !! i with
      | None => y
      | Some g => Sys (y_st y) (delete i (y_live y)) (y_gone y ++ [g]) (y_out y) (y_exn y)
      end
  end.
Definition sys_run (es : list event) (y : sys) : sys := fold_left sys_step es y.
Definition lines (es : list event) : list str :=
  flat_map (fun e => match e with Recv m => [m] | _ => [] end) es.
(** every flush is started with an interval of at least one second *)
Definition sane (e : event) : Prop := match e with Start i _ => 1000 <= i | _ => True end.

(** what a suspended flush has taken from the aggregates and not yet emitted *)
Fixpoint pending (g : gen mst) : list dp :=
  match g with GEmit ms k => ms ++ pending k | _ => [] end.
End sched.
