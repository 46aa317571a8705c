(** What the parsers of /proc files and the reporters of process.py should do. *)
From Verif Require Import Base Num Processor Glob LineSpec RouterSpec ProcSpec.

(** the pieces of [s] between the characters [c] *)
Definition cut (c : ascii) (s : str) (ps : list str) : Prop :=
  ps <> [] /\ s = spaced [c] ps /\ Forall (fun p => ~ In c p) ps.
(** the words of a line when only the space separates *)
Definition words (line : str) (ws : list str) : Prop :=
  exists ps, cut " " line ps /\ ws = filter (fun p => p <> []) ps.
(** the words of a text when any whitespace separates *)
Inductive ws_words : str -> list str -> Prop :=
| wsw_nil gap : all_in ws_chars gap -> ws_words gap []
| wsw_cons gap w rest ws :
    all_in ws_chars gap -> w <> [] -> (forall c, In c w -> ~ In c ws_chars) ->
    (forall c r', rest = c :: r' -> In c ws_chars) ->
    ws_words rest ws -> ws_words (gap ++ w ++ rest) (w :: ws).
(** the lines of a text, ended by a line feed, a carriage return or both *)
Definition one_line (l : str) : Prop := ~ In c_nl l /\ ~ In c_cr l.
Inductive lines_of : str -> list str -> Prop :=
| lo_none : lines_of [] []
| lo_last l : l <> [] -> one_line l -> lines_of l [l]
| lo_nl l s ls : one_line l -> lines_of s ls -> lines_of (l ++ [c_nl] ++ s) (l :: ls)
| lo_crnl l s ls : one_line l -> lines_of s ls -> lines_of (l ++ [c_cr; c_nl] ++ s) (l :: ls)
| lo_cr l s ls : one_line l -> (forall s', s <> c_nl :: s') -> lines_of s ls ->
    lines_of (l ++ [c_cr] ++ s) (l :: ls).

(** the last value given to [k] in a list of pairs *)
Definition last_of {K V : Type} (l : list (K * V)) (k : K) (v : V) : Prop :=
  exists a b, l = a ++ (k, v) :: b /\ forall v', ~ In (k, v') b.
(** [m] is the dictionary these pairs make, one after the other *)
Definition dict_of {V : Type} (l : list (str * V)) (m : gmap str V) : Prop :=
  forall k v, m !! k = Some v <-> last_of l k v.

(** ** /proc/meminfo *)
Definition memory_labels : list str :=
  [B "MemTotal"; B "MemFree"; B "Buffers"; B "Cached"; B "SwapCached"; B "SwapTotal"; B "SwapFree"].
Inductive unit_bytes : str -> Z -> Prop :=
| ub_k : unit_bytes (B "kB") 1024
| ub_m : unit_bytes (B "mB") 1048576.
Definition memory_label (w k : str) : Prop := In k memory_labels /\ w = k ++ B ":".
(** what a line says: nothing, or the bytes of a label *)
Inductive mem_line : str -> list (str * Z) -> Prop :=
| ml_empty : mem_line [] []
| ml_other line w ws : words line (w :: ws) -> (forall k, ~ memory_label w k) -> mem_line line []
| ml_unit line w k a u n b : words line [w; a; u] -> memory_label w k ->
    int_text a n -> unit_bytes u b -> mem_line line [(k, n * b)]
| ml_plain line w k a ws n : words line (w :: a :: ws) -> memory_label w k ->
    length ws <> 1%nat -> int_text a n -> mem_line line [(k, n)].
(** a line that cannot be read, and what is raised *)
Inductive mem_bad : str -> exn -> Prop :=
| mb_blank line : line <> [] -> (forall c, In c line -> c = " "%char) -> mem_bad line IndexError
| mb_alone line w k : words line [w] -> memory_label w k -> mem_bad line IndexError
| mb_unit line w k a u : words line [w; a; u] -> memory_label w k ->
    (forall b, ~ unit_bytes u b) -> mem_bad line KeyError
| mb_number line w k a ws : words line (w :: a :: ws) -> memory_label w k ->
    (forall u, ws = [u] -> exists b, unit_bytes u b) -> (forall n, ~ int_text a n) -> mem_bad line ValueError.

(** ** /proc/net/dev *)
(** position of the last [x] *)
Definition last_at (l : list str) (x : str) (i : nat) : Prop :=
  nth_error l i = Some x /\ forall j, (i < j)%nat -> nth_error l j <> Some x.
(** the number in the receive (transmit) column [c]: the last column so called
    among those for which there is a number *)
Definition received (rcols : list str) (ns : list Z) (c : str) (v : Z) : Prop :=
  exists i, last_at (firstn (length ns) rcols) c i /\ nth_error ns i = Some v.
Definition transmitted (rcols tcols : list str) (ns : list Z) (c : str) (v : Z) : Prop :=
  received tcols (skipn (length rcols) ns) c v.
Inductive dev_line (prefix : str) (rcols tcols : list str) : str -> list (str * Z) -> Prop :=
| dl_other line : ~ In ":"%char line -> dev_line prefix rcols tcols line []
| dl_device line d name data ws ns rb sb rp sp :
    line = d ++ B ":" ++ data -> ~ In ":"%char d -> ~ In ":"%char data -> stripped d name ->
    ws_words data ws -> Forall2 int_text ws ns ->
    received rcols ns (B "bytes") rb -> transmitted rcols tcols ns (B "bytes") sb ->
    received rcols ns (B "packets") rp -> transmitted rcols tcols ns (B "packets") sp ->
    dev_line prefix rcols tcols line
      [(prefix ++ B "." ++ name ++ B ".packets.sent", sp);
       (prefix ++ B "." ++ name ++ B ".packets.received", rp);
       (prefix ++ B "." ++ name ++ B ".bytes.sent", sb);
       (prefix ++ B "." ++ name ++ B ".bytes.received", rb)].
(** the whole file: a title, a line naming the columns, the devices *)
Inductive dev_file (prefix : str) : list str -> list (list (str * Z)) -> Prop :=
| df title header r t x rcols tcols devices outs :
    cut "|" header [x; r; t] -> ws_words r rcols -> ws_words t tcols ->
    Forall2 (dev_line prefix rcols tcols) devices outs ->
    dev_file prefix (title :: header :: devices) outs.

(** ** report_counters *)
Section counters.
Context {V : Type} (minus : V -> V -> V).
Notation dict := (gmap str V).
Definition minus_dict (new last r : dict) : Prop :=
  forall k d, r !! k = Some d <-> exists a b, new !! k = Some a /\ last !! k = Some b /\ d = minus a b.
(** no key of [new] is missing in [last] *)
Definition covered (new last : dict) : Prop := forall k, is_Some (new !! k) -> is_Some (last !! k).
(** the results of calls, [last] being the previous reading *)
Inductive reported : option dict -> list (res dict) -> list (res dict) -> Prop :=
| rp_end last : reported last [] []
| rp_first new xs rs : reported (Some new) xs rs -> reported None (Ok new :: xs) (Ok ∅ :: rs)
| rp_next last new xs r rs : covered new last -> minus_dict new last r -> reported (Some new) xs rs ->
    reported (Some last) (Ok new :: xs) (Ok r :: rs)
| rp_new_key last new xs : ~ covered new last ->
    reported (Some last) (Ok new :: xs) (Exn KeyError :: map (fun _ => Exn StopIteration) xs)
| rp_failed last e xs :
    reported last (Exn e :: xs) (Exn e :: map (fun _ => Exn StopIteration) xs).
End counters.

(** ** connections *)
(** the number of stream connections whose status is [status] up to letter case *)
Inductive tally {T : Type} (stream : T -> Prop) (status : str) : list (T * str) -> Z -> Prop :=
| ta_none : tally stream status [] 0
| ta_hit t s l n : stream t -> word s status -> tally stream status l n -> tally stream status ((t, s) :: l) (n + 1)
| ta_miss t s l n : ~ (stream t /\ word s status) -> tally stream status l n -> tally stream status ((t, s) :: l) n.
