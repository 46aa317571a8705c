(** What a history of calls of the client API means, told from the calls alone
    (no object, dictionary or method of the model is mentioned; the python
    operators on values [show], [padd], [psub], [pneg], [pmul1000] are). *)
From Verif Require Import Base Num ClientMetrics.

(** the full name of a metric *)
Inductive qualified : option str -> option str -> str -> Prop :=
| q_both ns n : ns <> [] -> qualified (Some ns) (Some n) (ns ++ B "." ++ n)
| q_empty n : qualified (Some []) (Some n) n
| q_absent n : qualified None (Some n) n
| q_ns ns : qualified (Some ns) None ns
| q_nothing : qualified None None [].

Section spec.
Context `{NN : Num} (E : cenv) (P : mconf).

Definition is_num (v : val) : Prop := match v with VStr _ => False | _ => True end.

(** the name a call is about *)
Inductive names : call -> option str -> Prop :=
| nm_report n v t x : names (CReport n v t x) n
| nm_sli n v x : names (CSli n v x) n
| nm_error n : names (CSliError n) n
| nm_gauge n v r : names (CGauge n v r) n
| nm_meter n v r : names (CMeter n v r) n
| nm_inc n v r : names (CIncrement n v r) n
| nm_dec n v r : names (CDecrement n v r) n
| nm_timing n d r : names (CTiming n d r) n
| nm_distinct n v : names (CDistinct n v) n
| nm_clear n : names (CClear n) n.
Definition about (c : call) (q : str) : Prop := exists n, names c n /\ qualified (m_ns P) n q.

(** the kind and sample rate a call gives to a name that is still free *)
Inductive opens : call -> kind -> val -> Prop :=
| op_report n v t x : opens (CReport n v t x) (KGeneric t) (VInt 1)
| op_sli n v x : opens (CSli n v x) (KGeneric (B "sli")) (VInt 1)
| op_error n : opens (CSliError n) (KGeneric (B "sli")) (VInt 1)
| op_gauge n v r : opens (CGauge n v r) KGauge r
| op_meter n v r : opens (CMeter n v r) KMeter r
| op_inc n v r : opens (CIncrement n v r) (if m_ext P then KCounter else KPlain) r
| op_dec n v r : opens (CDecrement n v r) (if m_ext P then KCounter else KPlain) r
| op_timing n d r : opens (CTiming n d r) (if m_ext P then KTimer else KPlain) r
| op_distinct n v : opens (CDistinct n v) KDistinct (VInt 1).

(** the first call about [q] in [h] (other than clear) gave it kind [k], rate [r] *)
Definition bound (h : list call) (q : str) (k : kind) (r : val) : Prop :=
  exists h1 c h2, h = h1 ++ c :: h2 /\ about c q /\ opens c k r /\
    forall c', In c' h1 -> about c' q -> forall k' r', ~ opens c' k' r'.

(** the total of a counter: increments minus decrements since the last clear *)
Inductive total (q : str) : list call -> val -> Prop :=
| to_none : total q [] (VInt 0)
| to_inc h n v r t t' : qualified (m_ns P) n q -> total q h t -> padd t v = Ok t' ->
    total q (h ++ [CIncrement n v r]) t'
| to_dec h n v r t t' : qualified (m_ns P) n q -> total q h t -> psub t v = Ok t' ->
    total q (h ++ [CDecrement n v r]) t'
| to_clear h n t : qualified (m_ns P) n q -> total q h t -> total q (h ++ [CClear n]) (VInt 0)
| to_other h c t :
    ~ (exists n v r, (c = CIncrement n v r \/ c = CDecrement n v r) /\ is_num v /\ qualified (m_ns P) n q) ->
    ~ (exists n, c = CClear n /\ qualified (m_ns P) n q) ->
    total q h t -> total q (h ++ [c]) t.

(** the clock: a reading is made by reset_timing and by timing without a duration *)
Definition reads_clock (c : call) : Prop := c = CResetTiming \/ exists n r, c = CTiming n None r.
(** [readings h n last]: [h] made [n] readings, the last one gave [last] *)
Inductive readings : list call -> nat -> val -> Prop :=
| rd_none : readings [] 0 (VInt 0)
| rd_one h c n l : reads_clock c -> readings h n l -> readings (h ++ [c]) (S n) (VFlt (c_now E n))
| rd_other h c n l : ~ reads_clock c -> readings h n l -> readings (h ++ [c]) n l.
(** the duration a call of timing reports after [h] *)
Inductive lasted (h : list call) : option val -> val -> Prop :=
| la_given d : lasted h (Some d) d
| la_clock n l d : readings h n l -> psub (VFlt (c_now E n)) l = Ok d -> lasted h None d.

Definition show := show E.
(** ["value|type"] for an object of a kind that has [mark] *)
Inductive marks : kind -> val -> str -> Prop :=
| mk_gauge v : marks KGauge v (show v ++ B "|g")
| mk_meter v : marks KMeter v (show v ++ B "|m")
| mk_distinct v : marks KDistinct v (show v ++ B "|d")
| mk_generic key v : marks (KGeneric key) v (show v ++ B "|" ++ key)
| mk_timer v : marks KTimer v (show (pmul1000 v) ++ B "|ms").

(** what call [c] after history [h] says about a metric of kind [k] *)
Inductive says (h : list call) (q : str) (k : kind) : call -> str -> Prop :=
| sy_report n v t key : k = KGeneric key -> says h q k (CReport n v t None) (show v ++ B "|" ++ key)
| sy_report_extra n v t x key : k = KGeneric key ->
    says h q k (CReport n v t (Some x)) (show v ++ B "|" ++ key ++ B "|" ++ show x)
| sy_sli n v key : k = KGeneric key -> says h q k (CSli n v None) (show v ++ B "|" ++ key)
| sy_sli_size n v x key : k = KGeneric key ->
    says h q k (CSli n v (Some x)) (show v ++ B "|" ++ key ++ B "|" ++ show x)
| sy_error n key : k = KGeneric key -> says h q k (CSliError n) (B "error|" ++ key)
| sy_gauge n v r d : marks k v d -> says h q k (CGauge n v r) d
| sy_meter n v r d : marks k v d -> says h q k (CMeter n v r) d
| sy_distinct n v d : marks k v d -> says h q k (CDistinct n v) d
| sy_inc n v r : m_ext P = false -> says h q k (CIncrement n v r) (show v ++ B "|c")
| sy_dec n v w r : m_ext P = false -> pneg v = Ok w -> says h q k (CDecrement n v r) (show w ++ B "|c")
| sy_timing n d r v : m_ext P = false -> lasted h d v ->
    says h q k (CTiming n d r) (show (pmul1000 v) ++ B "|ms")
| sy_inc_ext n v r t : m_ext P = true -> k = KCounter -> is_num v ->
    total q (h ++ [CIncrement n v r]) t -> says h q k (CIncrement n v r) (show t ++ B "|c")
| sy_dec_ext n v r t : m_ext P = true -> k = KCounter -> is_num v ->
    total q (h ++ [CDecrement n v r]) t -> says h q k (CDecrement n v r) (show t ++ B "|c")
| sy_timing_ext n d r v t : m_ext P = true -> lasted h d v -> marks k v t -> says h q k (CTiming n d r) t
| sy_clear n : k = KCounter -> says h q k (CClear n) (B "0|c").

Definition no_mark (k : kind) : Prop := k = KPlain \/ k = KCounter.
Definition generic (k : kind) : Prop := exists key, k = KGeneric key.
(** when call [c] on a metric of kind [k] raises [e] instead *)
Inductive refuses (k : kind) : call -> exn -> Prop :=
| rf_report n v t x : no_mark k -> refuses k (CReport n v t x) AttributeError
| rf_report_args n v t x : ~ no_mark k -> ~ generic k -> refuses k (CReport n v t x) TypeError
| rf_sli n v x : no_mark k -> refuses k (CSli n v x) AttributeError
| rf_sli_args n v x : ~ no_mark k -> ~ generic k -> refuses k (CSli n v x) TypeError
| rf_error n : no_mark k -> refuses k (CSliError n) AttributeError
| rf_error_args n : ~ no_mark k -> ~ generic k -> refuses k (CSliError n) TypeError
| rf_gauge n v r : no_mark k -> refuses k (CGauge n v r) AttributeError
| rf_meter n v r : no_mark k -> refuses k (CMeter n v r) AttributeError
| rf_distinct n v : no_mark k -> refuses k (CDistinct n v) AttributeError
| rf_dec n s r : m_ext P = false -> refuses k (CDecrement n (VStr s) r) TypeError
| rf_inc_ext n v r : m_ext P = true -> k <> KCounter -> refuses k (CIncrement n v r) AttributeError
| rf_dec_ext n v r : m_ext P = true -> k <> KCounter -> refuses k (CDecrement n v r) AttributeError
| rf_inc_str n s r : m_ext P = true -> k = KCounter -> refuses k (CIncrement n (VStr s) r) TypeError
| rf_dec_str n s r : m_ext P = true -> k = KCounter -> refuses k (CDecrement n (VStr s) r) TypeError
| rf_timing n d r : m_ext P = true -> no_mark k -> refuses k (CTiming n d r) AttributeError.

(** a message reaches the connection: only 7-bit text does *)
Inductive reaches (m : str) : list str -> res unit -> Prop :=
| re_none : m_conn P = false -> reaches m [] (Ok tt)
| re_sent : m_conn P = true -> (forall c, In c m -> (N_of_ascii c < 128)%N) -> reaches m [m] (Ok tt)
| re_raise c : m_conn P = true -> In c m -> (128 <= N_of_ascii c)%N -> reaches m [] (Exn UnicodeDecodeError).
(** sampling: rate [r], random draw [x] *)
Inductive transmits (q : str) (r : val) (x : num) (data : str) : list str -> res unit -> Prop :=
| tr_full out e : below_one r = false -> reaches (q ++ B ":" ++ data) out e -> transmits q r x data out e
| tr_kept out e : below_one r = true -> above x r = false ->
    reaches (q ++ B ":" ++ data ++ B "|@" ++ show r) out e -> transmits q r x data out e
| tr_skipped : below_one r = true -> above x r = true -> transmits q r x data [] (Ok tt).

(** everything call [c] after history [h] does: the messages written and the
    result, when the next random draw is [x] *)
Inductive effect (h : list call) (x : num) : call -> list str -> res unit -> Prop :=
| ef_reset : effect h x CResetTiming [] (Ok tt)
| ef_idle n q : qualified (m_ns P) n q -> (forall r, ~ bound h q KCounter r) -> effect h x (CClear n) [] (Ok tt)
| ef_refuse c q k r e : about c q -> bound (h ++ [c]) q k r -> refuses k c e -> effect h x c [] (Exn e)
| ef_say c q k r data out e : about c q -> bound (h ++ [c]) q k r -> says h q k c data ->
    transmits q r x data out e -> effect h x c out e.
End spec.
