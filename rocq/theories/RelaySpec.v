(** What is forwarded for a line, in terms of the text of the rules (RouterSpec.v). *)
From Verif Require Import Base LineSpec ProcSpec Router RouterSpec.

Section spec.
Context (G : engine).
(** some rule raises an exception on some metric: the texts sent to the redirects before that *)
Inductive stops : nat -> list rule_text -> list metric -> list (nat * str) -> Prop :=
| st_here j r rs before m after mid ts :
    applies_all G r before mid ts -> (~ exists ms ts', applies G r m ms ts') ->
    stops j (r :: rs) (before ++ m :: after) (map (pair j) ts)
| st_later j r rs ms mid ts sent :
    applies_all G r ms mid ts -> stops (j + is_redirect r) rs mid sent ->
    stops j (r :: rs) ms (map (pair j) ts ++ sent).
(** what the line [m] makes the rules send, in order *)
Inductive line_sends (rws : list rule_text) (m : str) : list (nat * str) -> Prop :=
| ls_bad : (forall t k fs, ~ typed_line m t k fs) -> line_sends rws m []
| ls_done t k fs out sent : typed_line m t k fs -> routes G 0 rws [(t, k, fs)] out sent -> line_sends rws m sent
| ls_stop t k fs sent : typed_line m t k fs -> stops 0 rws [(t, k, fs)] sent -> line_sends rws m sent.
(** the texts for redirect [i] *)
Definition forwards (rws : list rule_text) (i : nat) (m : str) (ts : list str) : Prop :=
  exists sent, line_sends rws m sent /\ ts = omap (fun x => if decide (fst x = i) then Some (snd x) else None) sent.
End spec.
