(** What a received line means, stated with the input language of LineSpec.v
    only (no function of the model of the processor). *)
From Verif Require Import Base Num LineSpec.

Section spec.
Context `{NN : Num}.

(** [s] is the text of the number [x] *)
Definition reads (s : str) (x : num) : Prop := exists l, float_text s l /\ x = nlit l.

(** [m] is a well-formed line of type [t] for the metric called [key] *)
Definition typed_line (m t key : str) (fields : list str) : Prop :=
  exists raw, line_of m raw fields /\ normalised raw key /\ nth_error fields 1 = Some t.

(** [m] adds the value [v] sampled at rate [r] to the counter [key] *)
Inductive counter_sample (m key : str) : num -> num -> Prop :=
| cs_plain f0 v : typed_line m (B "c") key [f0; B "c"] -> reads f0 v -> counter_sample m key v n1
| cs_rate f0 f2 run v r :
    typed_line m (B "c") key [f0; B "c"; f2] -> reads f0 v -> rate_text f2 run -> reads run r ->
    neqb r n0 = false -> counter_sample m key v r.

(** [m] makes the counter [key] known (also when its rate is then rejected) *)
Inductive counter_touch (m key : str) : Prop :=
| ct_plain f0 v : typed_line m (B "c") key [f0; B "c"] -> reads f0 v -> counter_touch m key
| ct_rate f0 f2 run v :
    typed_line m (B "c") key [f0; B "c"; f2] -> reads f0 v -> rate_text f2 run -> counter_touch m key.

(** [m] is a duration [d] for the timer [key] (a third field is ignored) *)
Definition timer_sample (m key : str) (d : num) : Prop :=
  exists f0 fs, typed_line m (B "ms") key (f0 :: fs) /\ reads f0 d.
(** gauges and meters: no ':' in the value (then it could not be a number) *)
Definition gauge_sample (m key : str) (v : num) : Prop :=
  exists f0 fs, typed_line m (B "g") key (f0 :: fs) /\ reads f0 v.
Definition meter_sample (m key : str) (v : num) : Prop :=
  exists f0 fs, typed_line m (B "m") key (f0 :: fs) /\ reads f0 v.

(** [picks P lines l]: [l] lists, in order, the [a] with [P m a] for [m] in [lines] *)
Inductive picks {A} (P : str -> A -> Prop) : list str -> list A -> Prop :=
| picks_nil : picks P [] []
| picks_hit m a ms l : P m a -> picks P ms l -> picks P (m :: ms) (a :: l)
| picks_miss m ms l : (forall a, ~ P m a) -> picks P ms l -> picks P (m :: ms) l.

(** the amount a counter line adds: value times 1/rate *)
Definition counter_amount (key m : str) (x : num) : Prop :=
  exists v r, counter_sample m key v r /\ x = nmul v (ndiv n1 r).
End spec.

Section raising.
Context `{NN : Num}.

(** ** When a line raises *)
(** fields an SLI metric rejects: bad size, or bad value other than "error" *)
Definition sli_rejects (fields : list str) : Prop :=
  (exists a b c, fields = [a; b; c] /\ not_a_number c) \/
  (exists a l, fields = a :: l /\ a <> B "error" /\ not_a_number a).

Inductive bad_value_raises (m : str) : exn -> Prop :=
| br_gauge key f0 fs : typed_line m (B "g") key (f0 :: fs) -> not_a_number f0 -> ~ In ":"%char f0 ->
    bad_value_raises m UnboundLocalError
| br_meter key f0 fs : typed_line m (B "m") key (f0 :: fs) -> not_a_number f0 -> ~ In ":"%char f0 ->
    bad_value_raises m UnboundLocalError
| br_rate key f0 f2 run v : typed_line m (B "c") key [f0; B "c"; f2] -> reads f0 v -> rate_text f2 run ->
    not_a_number run -> bad_value_raises m ValueError
| br_zero key f0 f2 run v r : typed_line m (B "c") key [f0; B "c"; f2] -> reads f0 v -> rate_text f2 run ->
    reads run r -> neqb r n0 = true -> bad_value_raises m ZeroDivisionError.

Definition builtin (t : str) : Prop := t = B "c" \/ t = B "ms" \/ t = B "g" \/ t = B "m".
End raising.
