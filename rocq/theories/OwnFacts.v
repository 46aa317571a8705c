(** The daemon's own statistics do what OwnSpec.v says. *)
From Verif Require Import Base StrFacts Num NumFacts Env Stats Glob Metrics Gen GenFacts Processor
  LineSpec LineFacts FloatFacts ProcFacts ProcSpec ReceiveFacts ReceiveFacts2 ReceiveFacts3
  Sched FlushInv FlushOk SchedFacts HistFacts Client Router RouterSpec RouterFacts RouterProps Server ServerSpec FrameFacts ServerFacts
  ClientMetrics ClientServer ReportSpec Daemon DaemonFacts Own OwnSpec.
Open Scope Z_scope.

Definition plain_text (s : str) : Prop := forall c, In c s -> code c < 128.
Lemma ascii_iff s : forallb is_ascii s = true <-> plain_text s.
Proof. unfold plain_text, is_ascii. rewrite forallb_forall. split; intros H c Hc; specialize (H c Hc); lia. Qed.
Lemma not_plain s : ~ plain_text s -> exists c, In c s /\ 128 <= code c.
Proof.
  intros H. destruct (forallb is_ascii s) eqn:E; [apply ascii_iff in E; contradiction|]. clear H.
  induction s as [|c s IH]; [discriminate|]. cbn [forallb] in E. destruct (is_ascii c) eqn:Ec.
  - destruct (IH E) as (c' & H & ?). exists c'. split; [right; exact H|assumption].
  - exists c. split; [left; reflexivity|]. unfold is_ascii in Ec. lia.
Qed.

Section client.
Context `{NN : Num} {S : Type} (G : engine).
Context (inner : str -> str -> str -> list str -> M S unit) (fl : gen S) (rs : list (rule G)).
Context (cfg : mon) (max : nat) (closes : bool) (refuses : nat -> dp -> option exn).
Context (CE : cenv) (ext : bool) (instance : str).
Notation step := (dstep G inner fl rs cfg max closes refuses).
Notation run := (drun G inner fl rs cfg max closes refuses).
Notation own_gauge := (own_gauge G inner fl rs cfg max closes refuses CE ext).
Notation own_items := (own_items G inner fl rs cfg max closes refuses CE ext instance).
Notation ostep := (ostep G inner fl rs cfg max closes refuses CE ext instance).
Notation orun := (orun G inner fl rs cfg max closes refuses CE ext instance).
Notation text := (gauge_text CE).

Definition gauges (c : cst) : Prop := forall q o, cl_metrics c !! q = Some o -> o = MObj KGauge q (VInt 1) (VInt 0).
Lemma gauges_new : gauges cl_init.
Proof. intros q o H. cbn in H. rewrite lookup_empty in H. discriminate. Qed.
Lemma drop_out {A} (l : list A) x : drop (length l) (l ++ [x]) = [x].
Proof. rewrite drop_app. reflexivity. Qed.
Lemma gauge_call name v c d : gauges c -> exists c1, gauges c1 /\ own_gauge name v c d =
  if forallb is_ascii (text name v) then
    (c1, step d (DInternal (text name v)), snd (r_process G inner rs (text name v) (v_proc (d_srv d))))
  else (c1, d, Exn UnicodeDecodeError).
Proof.
  intros Hg. unfold Own.own_gauge, m_gauge, metric_of, bnd, get_. unfold ClientMetrics.qualify. cbn [m_ns own_conf nonempty].
  destruct (cl_metrics c !! name) as [o|] eqn:E.
  - apply Hg in E as ->. unfold ret, mark1, send. cbn [o_kind o_rate o_name below_one]. change (1 <? 1) with false. cbv iota.
    fold (text name v). unfold write_. cbn [m_conn own_conf]. destruct (forallb is_ascii _).
    + exists (set_out (cl_out c ++ [text name v]) c). split; [exact Hg|]. unfold mod_. cbn [cl_out set_out]. rewrite drop_out. reflexivity.
    + exists c. split; [exact Hg|]. unfold raise. rewrite skipn_all. reflexivity.
  - unfold ret, mod_, mark1, send. cbn [o_kind o_rate o_name below_one]. change (1 <? 1) with false. cbv iota.
    fold (text name v). unfold write_. cbn [m_conn own_conf].
    assert (Hg' : gauges (set_metrics (<[name := MObj KGauge name (VInt 1) (VInt 0)]> (cl_metrics c)) c)).
    { intros q o. cbn [cl_metrics set_metrics]. rewrite lookup_insert_Some. intros [[<- <-]|[_ H]]; [reflexivity|apply Hg, H]. }
    destruct (forallb is_ascii _).
    + eexists (set_out (cl_out c ++ [text name v]) _). split; [exact Hg'|]. unfold mod_. cbn [cl_out set_out set_metrics]. rewrite drop_out. reflexivity.
    + eexists. split; [exact Hg'|]. unfold raise. cbn [cl_out set_metrics]. rewrite skipn_all. reflexivity.
Qed.
Definition full (n : str) : str := if nonempty instance then instance ++ B "." ++ n else n.
Lemma full_named n q : named instance n q <-> q = full n.
Proof.
  unfold full. split.
  - intros [->|H]; [reflexivity|]. destruct instance; [congruence|reflexivity].
  - intros ->. destruct instance as [|a l]; cbn [nonempty]; [apply nm_plain; reflexivity|apply nm_instance; discriminate].
Qed.
Definition item_text (i : str * val) : str := text (full (fst i)) (snd i).
Lemma item_text_iff i m : item_line CE instance i m <-> m = item_text i.
Proof.
  unfold item_text. split.
  - intros [n v q H]. apply full_named in H as ->. reflexivity.
  - intros ->. destruct i as [n v]. constructor. apply full_named. reflexivity.
Qed.
Lemma items_text is ms : Forall2 (item_line CE instance) is ms <-> ms = map item_text is.
Proof.
  revert ms. induction is as [|i is IH]; intros ms; cbn [map].
  - split; [intros H; inversion H; reflexivity|intros ->; constructor].
  - split.
    + intros H. inversion H as [|? m ? ms' Hm Hms]; subst. apply item_text_iff in Hm as ->. apply IH in Hms as ->. reflexivity.
    + intros ->. constructor; [apply item_text_iff; reflexivity|apply IH; reflexivity].
Qed.

(** the outcome of the line [m] in the daemon [d] *)
Notation outcome d m := (snd (r_process G inner rs m (v_proc (d_srv d)))).
(** one report, from the client's side: [made] were written, of which all but perhaps the
    last went well *)
Inductive ends (d : daemon (S := S)) : list (str * val) -> list (str * val) -> res unit -> Prop :=
| en_all : ends d [] [] (Ok tt)
| en_item i items made r : plain_text (item_text i) -> outcome d (item_text i) = Ok tt ->
    ends (step d (DInternal (item_text i))) items made r -> ends d (i :: items) (i :: made) r
| en_raised i items e : plain_text (item_text i) -> outcome d (item_text i) = Exn e -> ends d (i :: items) [i] (Exn e)
| en_text i items : ~ plain_text (item_text i) -> ends d (i :: items) [] (Exn UnicodeDecodeError).
Lemma items_call items : forall c d, gauges c -> exists c1 made r, gauges c1 /\ ends d items made r /\
  own_items items c d = (c1, run d (map (fun i => DInternal (item_text i)) made), r).
Proof.
  induction items as [|[n v] items IH]; intros c d Hc; cbn [Own.own_items].
  - exists c, [], (Ok tt). repeat split; [exact Hc|constructor].
  - change (if nonempty instance then instance ++ B "." ++ n else n) with (full n).
    destruct (gauge_call (full n) v c d Hc) as (c1 & Hc1 & ->). change (text (full n) v) with (item_text (n, v)).
    destruct (forallb is_ascii (item_text (n, v))) eqn:Ea.
    + apply ascii_iff in Ea. destruct (outcome d (item_text (n, v))) as [[]|e] eqn:Eo.
      * destruct (IH c1 (step d (DInternal (item_text (n, v)))) Hc1) as (c2 & made & r & Hc2 & He & ->).
        exists c2, ((n, v) :: made), r. split; [exact Hc2|]. split; [constructor; assumption|]. reflexivity.
      * exists c1, [(n, v)], (Exn e). split; [exact Hc1|]. split; [apply en_raised; assumption|]. reflexivity.
    + exists c1, [], (Exn UnicodeDecodeError). split; [exact Hc1|]. split; [|reflexivity].
      apply en_text. rewrite <- ascii_iff. congruence.
Qed.
Lemma ends_part d items made r : ends d items made r -> exists rest, items = made ++ rest.
Proof.
  induction 1 as [d|d i items made r _ _ _ [rest ->]|d i items|d i items]; [exists []|exists rest|exists items|exists (i :: items)]; reflexivity.
Qed.
Lemma run_app' d es es' : run d (es ++ es') = run (run d es) es'.
Proof. apply fold_left_app. Qed.

Definition ready (w : whole (S := S)) : Prop := gauges (o_client w).
Lemma ready_step w e : ready w -> ready (ostep w e).
Proof.
  unfold ready. intros H. destruct e as [e|[items|e]|v]; cbn [Own.ostep own_report]; try exact H.
  - destruct (items_call items (o_client w) (o_daemon w) H) as (c1 & made & r & Hc & _ & ->). exact Hc.
  - destruct (gauge_call (B "delay") v (o_client w) (o_daemon w) H) as (c1 & Hc & ->). destruct (forallb _ _); exact Hc.
Qed.
Lemma ready_run h : forall w, ready w -> ready (orun w h).
Proof. induction h as [|e h IH]; intros w H; [exact H|]. apply IH, ready_step, H. Qed.
Lemma orun_snoc w h e : orun w (h ++ [e]) = ostep (orun w h) e.
Proof. unfold Own.orun. rewrite fold_left_app. reflexivity. Qed.
Lemma written_history d h : exists es, written CE instance h es /\ o_daemon (orun (o_new d) h) = run d es.
Proof.
  induction h as [|e h [es [Hw Hd]]] using rev_ind; [exists []; split; [constructor|reflexivity]|].
  rewrite orun_snoc. pose proof (ready_run h (o_new d) gauges_new) as Hr. unfold ready in Hr.
  set (w := orun (o_new d) h) in *. destruct e as [e|[items|e]|v]; cbn [Own.ostep own_report].
  - exists (es ++ [e]). split; [constructor; exact Hw|]. cbn [o_daemon]. rewrite Hd, run_app'. reflexivity.
  - destruct (items_call items (o_client w) (o_daemon w) Hr) as (c1 & made & r & Hc & He & ->).
    destruct (ends_part _ _ _ _ He) as [rest ->]. exists (es ++ map DInternal (map item_text made)).
    split; [apply wr_report; [exact Hw|]; apply items_text; reflexivity|].
    cbn [o_daemon]. rewrite Hd, run_app', map_map. reflexivity.
  - exists es. split; [constructor; exact Hw|exact Hd].
  - destruct (gauge_call (B "delay") v (o_client w) (o_daemon w) Hr) as (c1 & Hc & ->).
    destruct (forallb is_ascii _) eqn:Ea; cbn [o_daemon].
    + exists (es ++ [DInternal (text (B "delay") v)]). split; [constructor; exact Hw|]. rewrite Hd, run_app'. reflexivity.
    + exists es. split; [apply wr_delay_not; [exact Hw|]|exact Hd].
      assert (Hn : ~ plain_text (text (B "delay") v)) by (rewrite <- ascii_iff; congruence).
      destruct (not_plain _ Hn) as (x & Hx & Hc'). exists x. split; [|exact Hc'].
      unfold gauge_text in Hx. apply in_app_or in Hx as [Hx|Hx]; [|apply in_app_or in Hx as [Hx|Hx]; [|apply in_app_or in Hx as [Hx|Hx]]]; [..|exact Hx|];
        exfalso; cbn in Hx; repeat destruct Hx as [<-|Hx]; try contradiction; vm_compute in Hc'; apply Hc'; reflexivity.
Qed.
Lemma ends_spec d items made r : ends d items made r -> exists done,
  report_ends CE instance items done (match r with Ok _ => [] | Exn e => [e] end) /\
  d_internal (run d (map (fun i => DInternal (item_text i)) made)) = d_internal d ++ done.
Proof.
  assert (Hone : forall d m, d_internal (step d (DInternal m)) = d_internal d ++ [(m, outcome d m)]).
  { intros d0 m. cbn [dstep]. destruct (r_process G inner rs m (v_proc (d_srv d0))) as [p x]. reflexivity. }
  induction 1 as [d|d i items made r Hp Ho _ (done & Hd & He)|d i items e Hp Ho|d i items Hp]; cbn [map].
  - exists []. split; [constructor|]. rewrite app_nil_r. reflexivity.
  - exists ((item_text i, Ok tt) :: done). split; [constructor; [apply item_text_iff; reflexivity|exact Hp|exact Hd]|].
    change (run d (DInternal (item_text i) :: map (fun i => DInternal (item_text i)) made)) with
      (run (step d (DInternal (item_text i))) (map (fun i => DInternal (item_text i)) made)).
    rewrite He, Hone, Ho, <- app_assoc. reflexivity.
  - exists [(item_text i, Exn e)]. split; [apply re_raised; [apply item_text_iff; reflexivity|exact Hp]|].
    change (run d [DInternal (item_text i)]) with (step d (DInternal (item_text i))). rewrite Hone, Ho. reflexivity.
  - exists []. split; [eapply re_text; [apply item_text_iff; reflexivity|apply not_plain, Hp]|]. rewrite app_nil_r. reflexivity.
Qed.
Lemma report_outcome d h items : let w := orun (o_new d) h in let w' := ostep w (OReport (Ok items)) in
  exists done l, report_ends CE instance items done l /\
    d_internal (o_daemon w') = d_internal (o_daemon w) ++ done /\ o_logged w' = o_logged w ++ l.
Proof.
  intros w w'. subst w'. cbn [Own.ostep own_report]. pose proof (ready_run h (o_new d) gauges_new) as Hr. fold w in Hr. unfold ready in Hr.
  destruct (items_call items (o_client w) (o_daemon w) Hr) as (c1 & made & r & Hc & He & ->).
  destruct (ends_spec _ _ _ _ He) as (done & Hd & Hi). cbn [o_daemon o_logged]. eauto.
Qed.
End client.
