(** What a routing configuration means, in terms of its text.  From the model only
    the type [metric] (type, name, fields) and the interface [engine] of regular
    expressions are used. *)
From Verif Require Import Base LineSpec GlobFacts Router.

(** pieces separated by one separator each *)
Fixpoint spaced (sep : str) (ps : list str) : str :=
  match ps with
  | [] => []
  | [p] => p
  | p :: ps' => p ++ sep ++ spaced sep ps'
  end.

(** the words of a text: it is cut at each space, empty pieces are dropped, and
    the pieces are stripped of other whitespace *)
Definition words_of (text : str) (ws : list str) : Prop :=
  exists ps, ps <> [] /\ text = spaced (B " ") ps /\ Forall (fun p => ~ In " "%char p) ps /\
             Forall2 stripped (filter (fun p => p <> []) ps) ws.

(** CONDITION => TARGET *)
Definition has_arrow (s : str) : Prop := exists a b, s = a ++ B "=>" ++ b.
Definition rule_text : Type := list str * list str.
Definition rule_of (line : str) (r : rule_text) : Prop :=
  exists a b, line = a ++ B "=>" ++ b /\ ~ has_arrow a /\ ~ has_arrow b /\
              words_of a (fst r) /\ words_of b (snd r).
(** the rules of a configuration: one per non-empty line *)
Definition rules_of (config : str) (rs : list rule_text) : Prop :=
  exists lines, lines <> [] /\ config = spaced [c_nl] lines /\ Forall (fun l => ~ In c_nl l) lines /\
                Forall2 rule_of (filter (fun l => l <> []) lines) rs.

(** which words are a condition, and what it says *)
Definition squeeze (ws : list str) : list str := filter (fun w => w <> []) ws.
Inductive good_cond : list str -> Prop :=
| gc_any : good_cond [B "any"]
| gc_not ws : good_cond (squeeze ws) -> good_cond (B "not" :: ws)
| gc_type ts : good_cond (B "metric_type" :: ts)
| gc_like p : good_cond [B "path_like"; p].
Inductive matches : list str -> metric -> bool -> Prop :=
| ma_any m : matches [B "any"] m true
| ma_not ws m b : matches (squeeze ws) m b -> matches (B "not" :: ws) m (negb b)
| ma_in ts t k fs : In t ts -> matches (B "metric_type" :: ts) (t, k, fs) true
| ma_out ts t k fs : ~ In t ts -> matches (B "metric_type" :: ts) (t, k, fs) false
| ma_like p t k fs : proper p -> describes p k -> matches [B "path_like"; p] (t, k, fs) true
| ma_unlike p t k fs : proper p -> ~ describes p k -> matches [B "path_like"; p] (t, k, fs) false.

(** an integer as python's int() reads it *)
Definition int_text (s : str) (n : Z) : Prop :=
  exists sg neg ds v, stripped s (sg ++ ds) /\ sign_of sg neg /\ ds <> [] /\ digits_of ds v /\ n = signed neg v.

Section spec.
Context (G : engine).

Definition redirect (ws : list str) : option (bool * str * str) :=
  match ws with
  | [name; host; port] =>
      if decide (name = B "redirect_udp") then Some (false, host, port)
      else if decide (name = B "redirect_tcp") then Some (true, host, port)
      else None
  | _ => None
  end.

Inductive good_target (service : bool) : list str -> Prop :=
| gt_drop : good_target service [B "drop"]
| gt_rewrite p repl r : rx_compile G p = Ok r -> good_target service [B "rewrite"; p; repl]
| gt_rewrite_dup p repl d r : rx_compile G p = Ok r -> good_target service [B "rewrite"; p; repl; d]
| gt_type t : good_target service [B "set_metric_type"; t]
| gt_type_dup t d : good_target service [B "set_metric_type"; t; d]
| gt_redirect name host port : name = B "redirect_udp" \/ name = B "redirect_tcp" ->
    (service = true -> exists n, int_text port n) -> good_target service [name; host; port].

(** the text of a metric *)
Definition text_of (m : metric) : str := let '(_, key, fields) := m in key ++ B ":" ++ barred fields.

(** what a target makes of a metric: the metrics that take its place and the texts
    sent to the rule's own redirect *)
Inductive effect : list str -> metric -> list metric -> list str -> Prop :=
| ef_drop m : effect [B "drop"] m [] []
| ef_rewrite p repl r t k fs k' :
    rx_compile G p = Ok r -> rx_sub G r repl k = Ok k' ->
    effect [B "rewrite"; p; repl] (t, k, fs) [(t, k', fs)] []
| ef_rewrite_arg p repl d r t k fs k' :
    rx_compile G p = Ok r -> rx_sub G r repl k = Ok k' -> d <> B "dup" \/ rx_match G r k = false ->
    effect [B "rewrite"; p; repl; d] (t, k, fs) [(t, k', fs)] []
| ef_rewrite_dup p repl r t k fs k' :
    rx_compile G p = Ok r -> rx_sub G r repl k = Ok k' -> rx_match G r k = true ->
    effect [B "rewrite"; p; repl; B "dup"] (t, k, fs) [(t, k, fs); (t, k', fs)] []
| ef_type t' t k fs : effect [B "set_metric_type"; t'] (t, k, fs) [(t', k, fs)] []
| ef_type_arg t' d t k fs : d <> B "dup" -> effect [B "set_metric_type"; t'; d] (t, k, fs) [(t', k, fs)] []
| ef_type_dup t' t k fs : effect [B "set_metric_type"; t'; B "dup"] (t, k, fs) [(t, k, fs); (t', k, fs)] []
| ef_udp host port m : effect [B "redirect_udp"; host; port] m [m] [text_of m]
| ef_tcp host port m : effect [B "redirect_tcp"; host; port] m [m] [text_of m].

(** one rule and one metric *)
Inductive applies : rule_text -> metric -> list metric -> list str -> Prop :=
| ap_skip cw tw m : matches cw m false -> applies (cw, tw) m [m] []
| ap_hit cw tw m ms ts : matches cw m true -> effect tw m ms ts -> applies (cw, tw) m ms ts.
(** one rule and the metrics that have survived so far, in order *)
Inductive applies_all (r : rule_text) : list metric -> list metric -> list str -> Prop :=
| aa_nil : applies_all r [] [] []
| aa_cons m ms out outs ts tss : applies r m out ts -> applies_all r ms outs tss ->
    applies_all r (m :: ms) (out ++ outs) (ts ++ tss).
Definition is_redirect (r : rule_text) : nat := match redirect (snd r) with Some _ => 1 | None => 0 end.
(** all rules; the texts are sent to the redirects numbered from [j] *)
Inductive routes : nat -> list rule_text -> list metric -> list metric -> list (nat * str) -> Prop :=
| ro_end j ms : routes j [] ms ms []
| ro_rule j r rs ms mid out ts sent :
    applies_all r ms mid ts -> routes (j + is_redirect r) rs mid out sent ->
    routes j (r :: rs) ms out (map (pair j) ts ++ sent).
Definition redirects (rs : list rule_text) : nat := list_sum (map is_redirect rs).
End spec.
