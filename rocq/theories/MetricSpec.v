(** What the rules hand to the processor, and what it counts for: in terms of the metrics
    (type, name, fields), whatever names the rules make up. *)
From Verif Require Import Base Num LineSpec FloatFacts ProcSpec Router RouterSpec.

Section spec.
Context `{NN : Num}.

(** [m] counts [x] under [key]: value divided by rate *)
Inductive count_metric (key : str) : metric -> num -> Prop :=
| cm_plain f0 f1 v : reads f0 v -> count_metric key (B "c", key, [f0; f1]) (ndiv v n1)
| cm_rate f0 f1 f2 run v r : reads f0 v -> rate_text f2 run -> reads run r -> neqb r n0 = false ->
    count_metric key (B "c", key, [f0; f1; f2]) (ndiv v r).
Inductive worth (key : str) (m : metric) : num -> Prop :=
| wo_some x : count_metric key m x -> worth key m x
| wo_none : (forall x, ~ count_metric key m x) -> worth key m n0.

(** the metrics of the types c, g and m that raise an exception *)
Inductive bad_metric : metric -> Prop :=
| bm_gauge k f0 fs : not_a_number f0 -> ~ In ":"%char f0 -> bad_metric (B "g", k, f0 :: fs)
| bm_meter k f0 fs : not_a_number f0 -> ~ In ":"%char f0 -> bad_metric (B "m", k, f0 :: fs)
| bm_rate k f0 f1 f2 run v : reads f0 v -> rate_text f2 run -> not_a_number run -> bad_metric (B "c", k, [f0; f1; f2])
| bm_zero k f0 f1 f2 run v r : reads f0 v -> rate_text f2 run -> reads run r -> neqb r n0 = true ->
    bad_metric (B "c", k, [f0; f1; f2]).
(** an exception keeps the metrics after it from the processor; metrics of plugins may raise *)
Inductive cut : list metric -> list metric -> Prop :=
| cut_end : cut [] []
| cut_next m ms ms' : ~ bad_metric m -> cut ms ms' -> cut (m :: ms) (m :: ms')
| cut_here m ms : bad_metric m \/ ~ builtin (fst (fst m)) -> cut (m :: ms) [m].
(** the metrics which the processor is given for the line [m] *)
Inductive hands (G : engine) (rws : list rule_text) (m : str) : list metric -> Prop :=
| hd_bad : (forall t k fs, ~ typed_line m t k fs) -> hands G rws m []
| hd_stuck t k fs : typed_line m t k fs -> (~ exists out sent, routes G 0 rws [(t, k, fs)] out sent) -> hands G rws m []
| hd_out t k fs out sent ms : typed_line m t k fs -> routes G 0 rws [(t, k, fs)] out sent -> cut out ms -> hands G rws m ms.
End spec.
