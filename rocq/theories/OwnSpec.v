(** What the daemon's own statistics come to. *)
From Verif Require Import Base Num Env Stats Metrics Gen Processor LineSpec ProcSpec
  Server Daemon ClientMetrics ClientServer ReportSpec Own.

Section spec.
Context `{NN : Num} (CE : cenv) (instance : str).
(** the line of a gauge *)
Definition gauge_text (q : str) (v : val) : str := q ++ B ":" ++ show CE v ++ B "|g".
Inductive item_line : str * val -> str -> Prop :=
| il n v q : named instance n q -> item_line (n, v) (gauge_text q v).

(** [written h es]: the daemon's events in [h], with lines of a part of each report, in its
    order, where the report was made *)
Inductive written : list (oevent (NN := NN)) -> list devent -> Prop :=
| wr_none : written [] []
| wr_event h es e : written h es -> written (h ++ [ODaemon e]) (es ++ [e])
| wr_report h es some rest ms : written h es -> Forall2 item_line some ms ->
    written (h ++ [OReport (Ok (some ++ rest))]) (es ++ map DInternal ms)
| wr_failed h es e : written h es -> written (h ++ [OReport (Exn e)]) es
| wr_delay h es v : written h es -> written (h ++ [ODelay v]) (es ++ [DInternal (gauge_text (B "delay") v)])
| wr_delay_not h es v : written h es -> (exists c, In c (show CE v) /\ 128 <= code c) -> written (h ++ [ODelay v]) es.

(** [report_ends items done l]: the lines of a report with their outcomes and what is logged:
    the first exception, or the first text that is not ASCII, ends it *)
Inductive report_ends : list (str * val) -> list (str * res unit) -> list exn -> Prop :=
| re_all : report_ends [] [] []
| re_item i m items done l : item_line i m -> (forall c, In c m -> code c < 128) -> report_ends items done l ->
    report_ends (i :: items) ((m, Ok tt) :: done) l
| re_raised i m items e : item_line i m -> (forall c, In c m -> code c < 128) -> report_ends (i :: items) [(m, Exn e)] [e]
| re_text i m items : item_line i m -> (exists c, In c m /\ 128 <= code c) -> report_ends (i :: items) [] [UnicodeDecodeError].

(** the values reported, with their full names *)
Inductive reported : list (oevent (NN := NN)) -> list (str * val) -> Prop :=
| rp_none : reported [] []
| rp_event h l e : reported h l -> reported (h ++ [ODaemon e]) l
| rp_report h l items qs : reported h l -> Forall2 (named instance) (map fst items) qs ->
    reported (h ++ [OReport (Ok items)]) (l ++ zip qs (map snd items))
| rp_failed h l e : reported h l -> reported (h ++ [OReport (Exn e)]) l
| rp_delay h l v : reported h l -> reported (h ++ [ODelay v]) (l ++ [(B "delay", v)]).
(** the functions' own failures *)
Fixpoint failures (h : list (oevent (NN := NN))) : list exn :=
  match h with
  | [] => []
  | OReport (Exn e) :: h' => e :: failures h'
  | _ :: h' => failures h'
  end.
(** [all_written h es]: all of it *)
Inductive all_written : list (oevent (NN := NN)) -> list devent -> Prop :=
| aw_none : all_written [] []
| aw_event h es e : all_written h es -> all_written (h ++ [ODaemon e]) (es ++ [e])
| aw_report h es items ms : all_written h es -> Forall2 item_line items ms ->
    all_written (h ++ [OReport (Ok items)]) (es ++ map DInternal ms)
| aw_failed h es e : all_written h es -> all_written (h ++ [OReport (Exn e)]) es
| aw_delay h es v : all_written h es -> all_written (h ++ [ODelay v]) (es ++ [DInternal (gauge_text (B "delay") v)]).

(** a reported value the server reads as the number [x] under [key] *)
Definition sound_item (i : str * val) (x : num * str) : Prop :=
  let '(q, v) := i in
  clean_name q /\ reads (show CE v) (fst x) /\ snd x = normalize_key q.
End spec.
