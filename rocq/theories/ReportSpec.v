(** What the reporting service and the reactor inspector should do. *)
From Verif Require Import Base Report.

(** ** the reporting service *)
Section service.
Context {V : Type} (instance : str) (rejects : str -> V -> option exn).
Inductive named (n : str) : str -> Prop :=
| nm_plain : instance = [] -> named n n
| nm_instance : instance <> [] -> named n (instance ++ B "." ++ n).
(** a result is reported item by item; the first item the report function refuses
    ends it *)
Inductive delivers : list (str * V) -> list (str * V) -> list exn -> Prop :=
| dv_end : delivers [] [] []
| dv_item n q v items r l : named n q -> rejects q v = None -> delivers items r l ->
    delivers ((n, v) :: items) ((q, v) :: r) l
| dv_refused n q v items e : named n q -> rejects q v = Some e -> delivers ((n, v) :: items) [] [e].
(** one call of a function scheduled with (true) or without (false) a report
    function; a function without one that raises is not covered *)
Inductive one_call : bool -> res (list (str * V)) -> list (str * V) -> list exn -> Prop :=
| oc_result items r l : delivers items r l -> one_call true (Ok items) r l
| oc_failure e : one_call true (Exn e) [] [e]
| oc_bare items : one_call false (Ok items) [] [].
(** [story h on ws calls reports logged]: what happened after [h], where the
    service is started only when stopped and stopped only when started *)
Inductive story : list (sevent V) -> bool -> list bool -> list nat -> list (str * V) -> list exn -> Prop :=
| st_none : story [] false [] [] [] []
| st_schedule h ws c r l w o : story h false ws c r l ->
    story (h ++ [ESchedule w o]) false (ws ++ [w]) c r l
| st_schedule_on h ws c r l w o r' l' : story h true ws c r l -> one_call w o r' l' ->
    story (h ++ [ESchedule w o]) true (ws ++ [w]) (c ++ [length ws]) (r ++ r') (l ++ l')
| st_start h ws c r l : story h false ws c r l -> story (h ++ [EStart]) true ws c r l
| st_stop h ws c r l : story h true ws c r l -> story (h ++ [EStop]) false ws c r l
| st_tick_off h ws c r l i o : story h false ws c r l -> story (h ++ [ETick i o]) false ws c r l
| st_tick h ws c r l i o w r' l' : story h true ws c r l -> nth_error ws i = Some w -> one_call w o r' l' ->
    story (h ++ [ETick i o]) true ws (c ++ [i]) (r ++ r') (l ++ l')
| st_tick_none h on ws c r l i o : story h on ws c r l -> nth_error ws i = None ->
    story (h ++ [ETick i o]) on ws c r l.
(** histories a story exists for: no start when started, no stop when stopped, and
    functions scheduled without a report function do not raise *)
Fixpoint sound (on : bool) (ws : list bool) (h : list (sevent V)) : Prop :=
  match h with
  | [] => True
  | ESchedule w o :: h' => (on = true -> w = false -> exists x, o = Ok x) /\ sound on (ws ++ [w]) h'
  | EStart :: h' => on = false /\ sound true ws h'
  | EStop :: h' => on = true /\ sound false ws h'
  | ETick i o :: h' => (on = true -> nth_error ws i = Some false -> exists x, o = Ok x) /\ sound on ws h'
  end.
End service.

(** ** the inspector, with a reactor that runs what it is given in order *)
Section inspector.
Context {T : Type} (minus : T -> T -> T).
(** [ledger h probes answers seen base asleep out]: the times of the probes sent and
    of the answers (the n-th answer is to the n-th probe), how many answers there
    were when the thread last woke, the time it last woke to an answer (or started),
    whether it sleeps, and what it reported *)
Inductive ledger : list (ievent (T := T)) -> list T -> list T -> nat -> T -> bool -> list (Z * verdict * T) -> Prop :=
| lg_start t : ledger [IStart t] [] [] 0 t false []
| lg_probe h p a n base t out : ledger h p a n base false out ->
    ledger (h ++ [IProbe t]) (p ++ [t]) a n base true out
| lg_answer h p a n base s t out : ledger h p a n base s out -> (length a < length p)%nat ->
    ledger (h ++ [IAnswer 0 t]) p (a ++ [t]) n base s out
| lg_silent h p a base t out : ledger h p a (length a) base true out ->
    ledger (h ++ [IWake t]) p a (length a) base false
           (out ++ [(Z.of_nat (length out), VUnresponsive, minus t base)])
| lg_answered h p a n base t out sent answered : ledger h p a n base true out ->
    nth_error p n = Some sent -> nth_error a n = Some answered ->
    ledger (h ++ [IWake t]) p a (length a) t false
           (out ++ [(Z.of_nat (length out),
                     if (n =? length out)%nat then VOk else VLate (Z.of_nat n), minus answered sent)]).
End inspector.
