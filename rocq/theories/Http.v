(** The metric pages of txstatsd/server/httpinfo.py:50-90. *)
From Verif Require Import Base Num Env Stats Glob Metrics Gen Processor Configurable.

Section http.
Context `{NN : Num}.

(** What a GET gives: no such page (resource.NoResource), an exception while rendering
    (twisted answers 500), or the dictionary of TimerResource.render_GET,
    httpinfo.py:86-91.  json.dumps is in Json.v. *)
Inductive page := NoPage | PageFails (e : exn) | TimerPage (histogram : list num) (max_value min_value : num).

(** TimerResource.render_GET, httpinfo.py:86-91 *)
Definition timer_page (t : timer) : page :=
  match h_histogram (ti_hist t) with
  | Exn e => PageFails e
  | Ok h => TimerPage h (h_get_max (ti_hist t)) (h_get_min (ti_hist t))
  end.

(** [getattr(metric, "getResource", None)] for a plugin's metric, httpinfo.py:71-76:
    neither the SLI nor the distinct reporter has one *)
Definition plugin_page (p : plug) : page := NoPage.

(** Metrics.getChild, httpinfo.py:65-76, the StatsD-compliant processor: its timers are
    lists; an empty list is false, so the plugin metric of that name is used; a list
    has no getResource *)
Definition mp_page (s : mst) (name : str) : page :=
  match p_timer s !! name with
  | Some (_ :: _) => NoPage
  | _ => match p_plug s !! name with
         | None => NoPage
         | Some p => plugin_page p
         end
  end.
(** the same for the configurable processor: its timers are TimerMetricReporters, which are
    true and have getResource, timermetric.py:109-112 *)
Definition cp_page (s : cst) (name : str) : page :=
  match p_timer s !! name with
  | Some t => timer_page t
  | None => match p_plug s !! name with
            | None => NoPage
            | Some p => plugin_page p
            end
  end.
End http.
