(** The loop of createService over the metric plugins, service.py:280-285, with the
    two plugins of twisted/plugins. *)
From Verif Require Import Base Num Env Process Metrics Gen Processor Configurable Glob SliConfig Service.

(** [getPlugins(IMetricFactory)], service.py:282: twisted gives the plugins it finds, in
    whatever order; here the two of the repository *)
Inductive stock := StockSli | StockDistinct.

(** [dict(items).get(n)], sli_plugin.py:57-59: the last pair for the name counts *)
Fixpoint section_get (items : list (str * str)) (n : str) : option str :=
  match items with
  | [] => None
  | (k, v) :: rest =>
      match section_get rest n with
      | Some x => Some x
      | None => if str_eqb k n then Some v else None
      end
  end.

Section plugins.
Context {NN : Num}.
(** [plugin.configure(options)]: sli_plugin.py:56-85 and distinct_plugin.py:39-40.  The SLI
    factory is an object of the module: what it was configured with stays ([cfg]).
    A value of "plugin_sli" that is not a list of pairs cannot come from the options
    (proved: SliRules.v); [dict] would refuse it or not. *)
Definition stock_configure (p : stock) (o : options) (cfg : sconfig) : sconfig * res unit :=
  match p with
  | StockDistinct => (cfg, Ok tt)
  | StockSli =>
      match o !! B "plugin_sli" with
      | None => sli_configure cfg None
      | Some (OPairs items) => sli_configure cfg (section_get items (B "rules"))
      | Some _ => (cfg, Exn TypeError)
      end
  end.
(** service.py:281-284; an exception ends createService *)
Fixpoint configure_plugins (ps : list stock) (o : options) (cfg : sconfig) : sconfig * res unit :=
  match ps with
  | [] => (cfg, Ok tt)
  | p :: rest =>
      match stock_configure p o cfg with
      | (cfg1, Ok _) => configure_plugins rest o cfg1
      | (cfg1, Exn e) => (cfg1, Exn e)
      end
  end.
(** [plugin_metrics], service.py:281, 284, as the processor sees them; [ks]: the order of
    the dictionary [self.config] *)
Definition stock_factories (ps : list stock) (cfg : sconfig) (ks : list str) : list factory :=
  map (fun p => match p with StockSli => sli_factory cfg ks | StockDistinct => FDistinct end) ps.
End plugins.
