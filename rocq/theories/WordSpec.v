(** What the words of a command line say, and where the values in a file come from.
    Independent of the model. *)
From Verif Require Import Base Service ServiceSpec IniSpec.

(** ** words *)
Definition long_names : list str := map (fun '(n, _, _, _) => n) documented ++ [B "version"; B "help"].
(** these cannot be abbreviated *)
Definition unabbreviated : list str := [B "config"; B "carbon-cache-host"; B "carbon-cache-port"; B "carbon-cache-name"].
(** what follows two dashes: a name, or the beginning of a single name *)
Inductive completes : str -> str -> Prop :=
| cp_exact n : In n long_names -> completes n n
| cp_begin p n : ~ In p long_names -> In n long_names -> ~ In n unabbreviated -> p `prefix_of` n ->
    (forall m, In m long_names -> p `prefix_of` m -> m = n) -> completes p n.
Definition prints (n : str) : Prop := n = B "version" \/ n = B "help".
Definition letter (c : ascii) : Prop := exists n d k, In (n, c, d, k) documented.
Definition no_eq (p : str) : Prop := ~ In "="%char p.
(** the words [ws] give the options [args] and leave [rest] *)
Inductive words_say : list str -> list (flag * str) -> list str -> Prop :=
| ws_end : words_say [] [] []
| ws_dashes ws : words_say (B "--" :: ws) [] ws
| ws_other w ws : (forall r, w = B "-" ++ r -> r = []) -> words_say (w :: ws) [] (w :: ws)
| ws_long p n v ws args rest : no_eq p -> completes p n -> ~ prints n -> words_say ws args rest ->
    words_say ((B "--" ++ p ++ B "=" ++ v) :: ws) ((FLong n, v) :: args) rest
| ws_long_next p n v ws args rest : no_eq p -> completes p n -> ~ prints n -> words_say ws args rest ->
    words_say ((B "--" ++ p) :: v :: ws) ((FLong n, v) :: args) rest
| ws_prints p n ws args rest : no_eq p -> completes p n -> prints n -> words_say ws args rest ->
    words_say ((B "--" ++ p) :: ws) ((FLong n, []) :: args) rest
| ws_short c v ws args rest : letter c -> v <> [] -> words_say ws args rest ->
    words_say ((B "-" ++ [c] ++ v) :: ws) ((FShort c, v) :: args) rest
| ws_short_next c v ws args rest : letter c -> words_say ws args rest ->
    words_say ((B "-" ++ [c]) :: v :: ws) ((FShort c, v) :: args) rest.
(** no option that prints and exits *)
Definition sets_only (args : list (flag * str)) : Prop := forall n v, In (FLong n, v) args -> ~ prints n.

(** ** files: a file that is not there says nothing *)
Definition file_says (texts : str -> option str) (path : str) (file : list section) : Prop :=
  (texts path = None /\ file = []) \/ exists t bs, texts path = Some t /\ says t bs /\ file = meaning bs.
