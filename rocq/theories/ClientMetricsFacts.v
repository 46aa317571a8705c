(** The client API model does what ClientMetricsSpec.v says. *)
From Verif Require Import Base StrFacts Num ClientMetrics ClientMetricsSpec.

Section facts.
Context `{NN : Num} (E : cenv) (P : mconf).
Notation qualify := (qualify P).
Notation about := (about P).
Notation opens := (opens P).
Notation bound := (bound P).
Notation total := (total P).
Notation effect := (effect E P).
Notation do_call := (do_call E P).

Lemma qualified_iff n q : qualified (m_ns P) n q <-> qualify n = q.
Proof.
  unfold ClientMetrics.qualify. split.
  - intros H. inversion H; subst; try reflexivity. destruct ns; [congruence|reflexivity].
  - intros <-. destruct n as [n|], (m_ns P) as [[|a ns]|]; cbn; try constructor. discriminate.
Qed.
Lemma about_fun c q q' : about c q -> about c q' -> q = q'.
Proof.
  intros (n & Hn & H) (n' & Hn' & H'). apply qualified_iff in H, H'.
  assert (n = n') by (inversion Hn; subst; inversion Hn'; reflexivity). congruence.
Qed.
Lemma about_dec c q : about c q \/ ~ about c q.
Proof.
  assert (D : forall n, names c n -> about c q \/ ~ about c q).
  { intros n Hn. destruct (decide (qualify n = q)) as [Hq|Hq].
    - left. exists n. split; [auto|]. apply qualified_iff; auto.
    - right. intros (n' & Hn' & H). apply qualified_iff in H. apply Hq.
      assert (n = n') by (inversion Hn; subst; inversion Hn'; reflexivity). congruence. }
  destruct c; try (eapply D; constructor; fail). right. intros (n & H & _). inversion H.
Qed.

(** ** bound *)
Lemma bound_app h c q k r : bound h q k r -> bound (h ++ [c]) q k r.
Proof.
  intros (h1 & c1 & h2 & -> & H). exists h1, c1, (h2 ++ [c]). split; [|exact H].
  rewrite <- app_assoc. reflexivity.
Qed.
Definition free (h : list call) (q : str) : Prop :=
  forall c, In c h -> about c q -> forall k r, ~ opens c k r.
Lemma bound_first h c q k r : free h q -> about c q -> opens c k r -> bound (h ++ [c]) q k r.
Proof. intros Hf Ha Ho. exists h, c, []. auto. Qed.
Lemma opens_fun c k r k' r' : opens c k r -> opens c k' r' -> k = k' /\ r = r'.
Proof. intros H H'. inversion H; subst; inversion H'; auto. Qed.
Lemma bound_fun h q k r k' r' : bound h q k r -> bound h q k' r' -> k = k' /\ r = r'.
Proof.
  intros (h1 & c & h2 & Hh & Ha & Ho & Hf) (h1' & c' & h2' & Hh' & Ha' & Ho' & Hf').
  rewrite Hh in Hh'.
  apply app_eq_inv in Hh' as [(l & -> & Hl)|(l & -> & Hl)].
  - destruct l as [|c0 l].
    + injection Hl as <- <-. eapply opens_fun; eauto.
    + injection Hl as <- ->. exfalso. eapply Hf; [|exact Ha'|exact Ho']. apply in_or_app. right. left. reflexivity.
  - destruct l as [|c0 l].
    + injection Hl as <- <-. eapply opens_fun; eauto.
    + injection Hl as -> ->. exfalso. eapply Hf'; [|exact Ha|exact Ho]. apply in_or_app. right. left. reflexivity.
Qed.
Lemma free_not_bound h q : free h q -> forall k r, ~ bound h q k r.
Proof.
  intros Hf k r (h1 & c & h2 & -> & Ha & Ho & _). eapply Hf; [|exact Ha|exact Ho].
  apply in_or_app. right. left. reflexivity.
Qed.
Lemma free_app h c q : free h q -> (about c q -> forall k r, ~ opens c k r) -> free (h ++ [c]) q.
Proof. intros Hf Hc c' H. apply in_app_or in H as [H|[<-|[]]]; [apply Hf; auto|exact Hc]. Qed.

(** ** totals *)
Lemma total_num q h t : total q h t -> is_num t.
Proof.
  induction 1; cbn; auto.
  - destruct t, v; cbn in *; try discriminate; match goal with H : Ok _ = Ok _ |- _ => injection H as <- end; exact Logic.I.
  - destruct t, v; cbn in *; try discriminate; match goal with H : Ok _ = Ok _ |- _ => injection H as <- end; exact Logic.I.
Qed.
Lemma total_other q h c t : ~ about c q -> total q h t -> total q (h ++ [c]) t.
Proof.
  intros Hn Ht. apply to_other; [| |exact Ht].
  - intros (n & v & r & [-> | ->] & _ & Hq); apply Hn; exists n; split; try constructor; auto.
  - intros (n & -> & Hq). apply Hn. exists n. split; [constructor|auto].
Qed.
Lemma total_free q h : free h q -> total q h (VInt 0).
Proof.
  induction h as [|c h IH] using rev_ind; intros Hf; [constructor|].
  assert (Hh : free h q). { intros c' H. apply Hf. apply in_or_app. auto. }
  assert (Hc : about c q -> forall k r, ~ opens c k r). { apply Hf. apply in_or_app. right. left. reflexivity. }
  specialize (IH Hh).
  destruct c; try (apply total_other; [|exact IH]; intros Ha; eapply (Hc Ha); constructor).
  - destruct (decide (qualify n = q)) as [Hq|Hq].
    + eapply to_clear; [apply qualified_iff; exact Hq|exact IH].
    + apply total_other; [|exact IH]. intros (n' & H & H'). inversion H; subst. apply Hq. apply qualified_iff; auto.
  - apply total_other; [|exact IH]. intros (n' & H & H'). inversion H.
Qed.

(** ** the invariant *)
Definition obj_ok (h : list call) (q : str) (o : mobj) : Prop :=
  o_name o = q /\ bound h q (o_kind o) (o_rate o) /\ (o_kind o = KCounter -> total q h (o_count o)).
Definition dict_ok (h : list call) (d : gmap str mobj) : Prop :=
  forall q, match d !! q with Some o => obj_ok h q o | None => free h q end.
Definition inv (h : list call) (s : cst) : Prop :=
  dict_ok h (cl_metrics s) /\ readings E h (cl_ticks s) (cl_last s).

Lemma dict_other h c d : dict_ok h d -> (forall q, about c q -> forall k r, ~ opens c k r) ->
  (forall q o, about c q -> d !! q = Some o -> o_kind o = KCounter -> total q (h ++ [c]) (o_count o)) ->
  dict_ok (h ++ [c]) d.
Proof.
  intros Hd Hc Ht q. specialize (Hd q). destruct (d !! q) as [o|] eqn:Eq.
  - destruct Hd as (Hn & Hb & Hk). split; [auto|]. split; [apply bound_app; auto|].
    intros Hc'. destruct (about_dec c q) as [Ha|Ha]; [eapply Ht; eauto|]. apply total_other; auto.
  - apply free_app; [exact Hd|apply Hc].
Qed.
Lemma dict_set h c q d o : dict_ok h d -> about c q -> obj_ok (h ++ [c]) q o -> dict_ok (h ++ [c]) (<[q:=o]> d).
Proof.
  intros Hd Ha Ho q'. destruct (decide (q = q')) as [<-|Hne].
  - rewrite lookup_insert. exact Ho.
  - rewrite lookup_insert_ne by auto. specialize (Hd q').
    assert (Hn : ~ about c q') by (intros H; apply Hne; eapply about_fun; eauto).
    destruct (d !! q') as [o'|].
    + destruct Hd as (H1 & H2 & H3). split; [auto|]. split; [apply bound_app; auto|].
      intros Hk. apply total_other; auto.
    + apply free_app; [exact Hd|]. intros H. contradiction.
Qed.

(** [s'] is [s] with another dictionary *)
Definition redict (d : gmap str mobj) (s : cst) : cst := set_metrics d s.
Lemma metric_of_ok h s c q k r : dict_ok h (cl_metrics s) -> about c q -> opens c k r ->
  exists o, metric_of q k r s = (redict (<[q:=o]> (cl_metrics s)) s, Ok o) /\
    o_name o = q /\ bound (h ++ [c]) q (o_kind o) (o_rate o) /\ (o_kind o = KCounter -> total q h (o_count o)).
Proof.
  intros Hd Ha Ho. unfold metric_of, bnd, get_, mod_, ret. specialize (Hd q).
  destruct (cl_metrics s !! q) as [o|] eqn:Eq.
  - exists o. destruct Hd as (H1 & H2 & H3). split; [|split; [auto|split; [apply bound_app; auto|auto]]].
    unfold redict. rewrite insert_id by auto. destruct s; reflexivity.
  - eexists. split; [reflexivity|]. split; [reflexivity|]. cbn. split.
    + apply bound_first; auto.
    + intros _. apply total_free. exact Hd.
Qed.

Lemma ascii_iff m : forallb is_ascii m = true <-> forall c, In c m -> (N_of_ascii c < 128)%N.
Proof.
  rewrite forallb_forall. unfold is_ascii, code. split; intros H c Hc; specialize (H c Hc);
    rewrite Z.ltb_lt in *; lia.
Qed.
Lemma write_ok m s : exists out e, write_ P m s = (set_out (cl_out s ++ out) s, e) /\ reaches P m out e.
Proof.
  unfold write_. destruct (m_conn P) eqn:Ec.
  - destruct (forallb is_ascii m) eqn:Ea.
    + exists [m], (Ok tt). split; [reflexivity|]. apply re_sent; [auto|]. apply ascii_iff; auto.
    + exists [], (Exn UnicodeDecodeError). split; [rewrite app_nil_r; destruct s; reflexivity|].
      assert (H : exists c, In c m /\ is_ascii c = false).
      { clear -Ea. induction m as [|a m IH]; [discriminate|]. cbn in Ea. apply andb_false_iff in Ea as [H|H].
        - exists a. split; [left; auto|auto].
        - destruct (IH H) as (c & ? & ?). exists c. split; [right; auto|auto]. }
      destruct H as (c & H1 & H2). apply re_raise with c; auto.
      unfold is_ascii, code in H2. apply Z.ltb_ge in H2. lia.
  - exists [], (Ok tt). split; [|apply re_none; auto]. rewrite app_nil_r. destruct s; reflexivity.
Qed.
Lemma send_ok o data s : exists out e n, send E P o data s = (set_draws n (set_out (cl_out s ++ out) s), e) /\
  transmits E P (o_name o) (o_rate o) (c_rand E (cl_draws s)) data out e /\
  n = (if below_one (o_rate o) then S (cl_draws s) else cl_draws s).
Proof.
  unfold send. destruct (below_one (o_rate o)) eqn:Eb.
  - unfold bnd, random_. destruct (above (c_rand E (cl_draws s)) (o_rate o)) eqn:Ea.
    + exists [], (Ok tt), (S (cl_draws s)). rewrite app_nil_r. split; [reflexivity|]. split; [apply tr_skipped; auto|auto].
    + destruct (write_ok (o_name o ++ B ":" ++ data ++ B "|@" ++ ClientMetrics.show E (o_rate o)) (set_draws (S (cl_draws s)) s)) as (out & e & H & Hr).
      exists out, e, (S (cl_draws s)). split; [exact H|]. split; [apply tr_kept; auto|auto].
  - destruct (write_ok (o_name o ++ B ":" ++ data) s) as (out & e & H & Hr).
    exists out, e, (cl_draws s). split; [rewrite H; destruct s; reflexivity|]. split; [apply tr_full; auto|auto].
Qed.

(** ** one call *)
Definition step_ok (h : list call) (s : cst) (c : call) : Prop :=
  inv (h ++ [c]) (fst (do_call c s)) /\
  exists out, cl_out (fst (do_call c s)) = cl_out s ++ out /\
    effect h (c_rand E (cl_draws s)) c out (snd (do_call c s)).

Lemma read_other h c n l : ~ reads_clock c -> readings E h n l -> readings E (h ++ [c]) n l.
Proof. apply rd_other. Qed.
Lemma not_clock_by c : (match c with CResetTiming | CTiming _ None _ => false | _ => true end) = true -> ~ reads_clock c.
Proof. intros H [->|(n & r & ->)]; discriminate. Qed.

(** calls that end by sending [data] through the object of [q] *)
Lemma sent_step h s c q o d data :
  let s1 := redict d s in
  dict_ok (h ++ [c]) d -> readings E (h ++ [c]) (cl_ticks s) (cl_last s) ->
  about c q -> o_name o = q -> bound (h ++ [c]) q (o_kind o) (o_rate o) -> says E P h q (o_kind o) c data ->
  inv (h ++ [c]) (fst (send E P o data s1)) /\
  exists out, cl_out (fst (send E P o data s1)) = cl_out s ++ out /\
    effect h (c_rand E (cl_draws s)) c out (snd (send E P o data s1)).
Proof.
  intros s1 Hd Hr Ha Hn Hb Hs. destruct (send_ok o data s1) as (out & e & n & H & Ht & _). rewrite H. cbn.
  split; [split; [exact Hd|exact Hr]|]. exists out. split; [reflexivity|].
  eapply ef_say; eauto. rewrite <- Hn. exact Ht.
Qed.
Lemma refused_step h s c q k r e d :
  dict_ok (h ++ [c]) d -> readings E (h ++ [c]) (cl_ticks s) (cl_last s) ->
  about c q -> bound (h ++ [c]) q k r -> refuses P k c e ->
  inv (h ++ [c]) (redict d s) /\ exists out, cl_out (redict d s) = cl_out s ++ out /\
    effect h (c_rand E (cl_draws s)) c out (Exn e).
Proof.
  intros Hd Hr Ha Hb He. split; [split; auto|]. exists []. rewrite app_nil_r. split; [reflexivity|].
  eapply ef_refuse; eauto.
Qed.

Lemma obj_next h c q o : o_name o = q -> bound (h ++ [c]) q (o_kind o) (o_rate o) ->
  (o_kind o = KCounter -> total q h (o_count o)) ->
  ~ (exists n v r, (c = CIncrement n v r \/ c = CDecrement n v r) /\ is_num v /\ o_kind o = KCounter) ->
  (forall n, c <> CClear n) -> obj_ok (h ++ [c]) q o.
Proof.
  intros Hn Hb Ht H1 H2. split; [auto|]. split; [auto|]. intros Hk. apply to_other; [| |auto].
  - intros (n & v & r & H & Hv & _). apply H1. exists n, v, r. auto.
  - intros (n & H & _). exact (H2 n H).
Qed.

Lemma mark1_step h s c q o d v :
  let s1 := redict d s in
  dict_ok (h ++ [c]) d -> readings E (h ++ [c]) (cl_ticks s) (cl_last s) ->
  about c q -> o_name o = q -> bound (h ++ [c]) q (o_kind o) (o_rate o) ->
  (forall data, marks E (o_kind o) v data -> says E P h q (o_kind o) c data) ->
  (no_mark (o_kind o) -> refuses P (o_kind o) c AttributeError) ->
  inv (h ++ [c]) (fst (mark1 E P o v s1)) /\
  exists out, cl_out (fst (mark1 E P o v s1)) = cl_out s ++ out /\
    effect h (c_rand E (cl_draws s)) c out (snd (mark1 E P o v s1)).
Proof.
  intros s1 Hd Hr Ha Hn Hb Hs He. unfold mark1.
  destruct (o_kind o) eqn:Ek;
    try (eapply sent_step; eauto; rewrite Ek; [exact Hb|apply Hs; constructor]);
    eapply (refused_step _ _ _ q); eauto; apply He; unfold no_mark; auto.
Qed.

Lemma mark2_step h s c q o d v x :
  let s1 := redict d s in
  dict_ok (h ++ [c]) d -> readings E (h ++ [c]) (cl_ticks s) (cl_last s) ->
  about c q -> o_name o = q -> bound (h ++ [c]) q (o_kind o) (o_rate o) ->
  (forall key, o_kind o = KGeneric key ->
     says E P h q (o_kind o) c (match x with None => show E v ++ B "|" ++ key | Some x => show E v ++ B "|" ++ key ++ B "|" ++ show E x end)) ->
  (no_mark (o_kind o) -> refuses P (o_kind o) c AttributeError) ->
  (~ no_mark (o_kind o) -> ~ generic (o_kind o) -> refuses P (o_kind o) c TypeError) ->
  inv (h ++ [c]) (fst (mark2 E P o v x s1)) /\
  exists out, cl_out (fst (mark2 E P o v x s1)) = cl_out s ++ out /\
    effect h (c_rand E (cl_draws s)) c out (snd (mark2 E P o v x s1)).
Proof.
  intros s1 Hd Hr Ha Hn Hb Hs He Ht. unfold mark2.
  destruct (o_kind o) eqn:Ek;
    try (eapply (refused_step _ _ _ q); eauto; apply He; unfold no_mark; auto; fail);
    try (eapply (refused_step _ _ _ q); eauto; apply Ht; [intros [H|H]; discriminate|intros (? & ?); discriminate]; fail).
  destruct x; eapply sent_step; eauto; rewrite Ek; try exact Hb; apply (Hs key eq_refl).
Qed.

Ltac nc := apply read_other; [apply not_clock_by; reflexivity|].
(** open the object of the name, keep its facts *)
Ltac open_metric q k r Hd :=
  let o := fresh "o" in let He := fresh "He" in
  destruct (metric_of_ok _ _ _ q k r Hd ltac:(eexists; split; [constructor|apply qualified_iff; reflexivity]) ltac:(constructor))
    as (o & He & ?Hn & ?Hb & ?Ht).

Lemma about_q c n : names c n -> about c (qualify n).
Proof. intros H. exists n. split; [auto|]. apply qualified_iff; auto. Qed.

Lemma obj_fail h c q o : o_name o = q -> bound (h ++ [c]) q (o_kind o) (o_rate o) ->
  (o_kind o = KCounter -> total q h (o_count o)) ->
  (forall n v r, c = CIncrement n v r \/ c = CDecrement n v r -> o_kind o <> KCounter \/ ~ is_num v) ->
  (forall n, c <> CClear n) -> obj_ok (h ++ [c]) q o.
Proof.
  intros Hn Hb Ht H1 H2. apply obj_next; auto. intros (n & v & r & H & Hv & Hk).
  destruct (H1 n v r H); contradiction.
Qed.

Lemma bnd_ok {S A C} (m : M S A) (f : A -> M S C) s s' a : m s = (s', Ok a) -> bnd m f s = f a s'.
Proof. unfold bnd. intros ->. reflexivity. Qed.
Lemma bnd_exn {S A C} (m : M S A) (f : A -> M S C) s s' e : m s = (s', Exn e) -> bnd m f s = (s', Exn e).
Proof. unfold bnd. intros ->. reflexivity. Qed.
Lemma store_send q o v d s data : o_name o = q ->
  (let! o' := store_count o v in send E P o' data) (redict d s) =
  send E P (set_count v o) data (redict (<[q := set_count v o]> d) s).
Proof. intros <-. unfold bnd, store_count, mod_, ret, redict. destruct s; reflexivity. Qed.
Lemma update_send q o v d s : o_name o = q ->
  counter_update E P o (Ok v) (redict d s) =
  send E P (set_count v o) (show E v ++ B "|c") (redict (<[q := set_count v o]> d) s).
Proof. intros Hn. apply (store_send q o v d s _ Hn). Qed.

Lemma read_now h n l : readings E h n l -> exists d, psub (VFlt (c_now E n)) l = Ok d.
Proof.
  intros H. inversion H; subst; cbn; eauto.
  assert (Hn : forall h n l, readings E h n l -> is_num l). { clear. induction 1; cbn; auto. }
  pose proof (Hn _ _ _ H) as K. destruct l; cbn; eauto. destruct K.
Qed.

Lemma kind_counter k : k = KCounter \/ k <> KCounter.
Proof. destruct k; try (right; discriminate). left. reflexivity. Qed.
Lemma match_counter {A} k (a b : A) : k <> KCounter -> match k with KCounter => a | _ => b end = b.
Proof. destruct k; congruence. Qed.

(** the body of the extended increment and decrement, once the object is there *)
Lemma counter_step h s c q o d (v : val) (r : res val) :
  let m := match o_kind o with KCounter => counter_update E P o r | _ => raise AttributeError end in
  let s1 := redict (<[q:=o]> d) s in
  dict_ok h d -> readings E (h ++ [c]) (cl_ticks s) (cl_last s) -> about c q ->
  o_name o = q -> bound (h ++ [c]) q (o_kind o) (o_rate o) -> (o_kind o = KCounter -> total q h (o_count o)) ->
  (forall n, c <> CClear n) ->
  (forall n v' r', c = CIncrement n v' r' \/ c = CDecrement n v' r' -> v' = v) ->
  (o_kind o <> KCounter -> refuses P (o_kind o) c AttributeError) ->
  (o_kind o = KCounter -> match r with
     | Ok t => total q (h ++ [c]) t /\ says E P h q KCounter c (show E t ++ B "|c")
     | Exn e => ~ is_num v /\ refuses P KCounter c e
     end) ->
  inv (h ++ [c]) (fst (m s1)) /\
  exists out, cl_out (fst (m s1)) = cl_out s ++ out /\ effect h (c_rand E (cl_draws s)) c out (snd (m s1)).
Proof.
  intros m s1 Hd Hr Ha Hn Hb Ht Hc Hv Hne Hk. subst m.
  destruct (kind_counter (o_kind o)) as [K|K].
  - specialize (Hk K). specialize (Ht K). rewrite K.
    destruct r as [t|e].
    + destruct Hk as [Htot Hs]. unfold s1. rewrite (update_send q) by auto. rewrite insert_insert.
      eapply sent_step; eauto; cbn; [|rewrite K; exact Hs].
      eapply dict_set; eauto. split; [exact Hn|]. split; [exact Hb|]. intros _. exact Htot.
    + destruct Hk as [Hv' He]. eapply (refused_step _ _ _ q); eauto; [|rewrite K; exact He].
      eapply dict_set; eauto. apply obj_fail; auto. intros n v' r' H. right. rewrite (Hv _ _ _ H). exact Hv'.
  - rewrite (match_counter _ _ _ K). eapply (refused_step _ _ _ q); eauto.
    eapply dict_set; eauto. apply obj_fail; auto.
Qed.

Lemma plain_kind h q k r : m_ext P = false -> bound h q k r -> k <> KCounter.
Proof.
  intros Ex (h1 & c & h2 & _ & _ & Ho & _) ->. inversion Ho; rewrite Ex in *; discriminate.
Qed.

Theorem call_ok h s c : inv h s -> step_ok h s c.
Proof.
  intros [Hd Hr]. unfold step_ok.
  destruct c; cbn [ClientMetrics.do_call].
  - (* report *) unfold m_report, bnd.
    destruct (metric_of_ok h s (CReport n v t extra) (qualify n) (KGeneric t) (VInt 1) Hd) as (o & He & Hn & Hb & Ht);
      [apply about_q; constructor|constructor|]. rewrite He.
    eapply mark2_step; eauto; [|nc; exact Hr|apply about_q; constructor| | |].
    + apply (dict_set _ _ _ _ _ ltac:(first [exact Hd|exact Hd2])); [apply about_q; constructor|]. apply obj_fail; auto; try (intros; discriminate).
      intros ? ? ? [H|H]; discriminate.
    + intros key ->. destruct extra; constructor; auto.
    + constructor; auto.
    + constructor; auto.
  - (* sli *) unfold m_sli, m_report, bnd.
    destruct (metric_of_ok h s (CSli n v size) (qualify n) (KGeneric (B "sli")) (VInt 1) Hd) as (o & He & Hn & Hb & Ht);
      [apply about_q; constructor|constructor|]. rewrite He.
    eapply mark2_step; eauto; [|nc; exact Hr|apply about_q; constructor| | |].
    + apply (dict_set _ _ _ _ _ ltac:(first [exact Hd|exact Hd2])); [apply about_q; constructor|]. apply obj_fail; auto; try (intros; discriminate).
      intros ? ? ? [H|H]; discriminate.
    + intros key ->. destruct size; constructor; auto.
    + constructor; auto.
    + constructor; auto.
  - (* sli_error *) unfold m_sli_error, m_report, bnd.
    destruct (metric_of_ok h s (CSliError n) (qualify n) (KGeneric (B "sli")) (VInt 1) Hd) as (o & He & Hn & Hb & Ht);
      [apply about_q; constructor|constructor|]. rewrite He.
    eapply mark2_step; eauto; [|nc; exact Hr|apply about_q; constructor| | |].
    + apply (dict_set _ _ _ _ _ ltac:(first [exact Hd|exact Hd2])); [apply about_q; constructor|]. apply obj_fail; auto; try (intros; discriminate).
      intros ? ? ? [H|H]; discriminate.
    + intros key ->. apply (sy_error _ _ _ _ _ _ key). reflexivity.
    + constructor; auto.
    + constructor; auto.
  - (* gauge *) unfold m_gauge, bnd.
    destruct (metric_of_ok h s (CGauge n v rate) (qualify n) KGauge rate Hd) as (o & He & Hn & Hb & Ht);
      [apply about_q; constructor|constructor|]. rewrite He.
    eapply mark1_step; eauto; [|nc; exact Hr|apply about_q; constructor| |]; try (intros; constructor; auto; fail).
    apply (dict_set _ _ _ _ _ ltac:(first [exact Hd|exact Hd2])); [apply about_q; constructor|]. apply obj_fail; auto; try (intros; discriminate).
    intros ? ? ? [H|H]; discriminate.
  - (* meter *) unfold m_meter, bnd.
    destruct (metric_of_ok h s (CMeter n v rate) (qualify n) KMeter rate Hd) as (o & He & Hn & Hb & Ht);
      [apply about_q; constructor|constructor|]. rewrite He.
    eapply mark1_step; eauto; [|nc; exact Hr|apply about_q; constructor| |]; try (intros; constructor; auto; fail).
    apply (dict_set _ _ _ _ _ ltac:(first [exact Hd|exact Hd2])); [apply about_q; constructor|]. apply obj_fail; auto; try (intros; discriminate).
    intros ? ? ? [H|H]; discriminate.
  - (* increment *) unfold m_increment. destruct (m_ext P) eqn:Ex.
    +
      destruct (metric_of_ok h s (CIncrement n v rate) (qualify n) KCounter rate Hd) as (o & He & Hn & Hb & Ht);
        [apply about_q; constructor| |].
      { replace KCounter with (if m_ext P then KCounter else KPlain) by (rewrite Ex; auto). constructor. }
      rewrite (bnd_ok _ _ _ _ _ He). apply (counter_step h s (CIncrement n v rate) (qualify n) o _ v);
        [exact Hd|nc; exact Hr|apply about_q; constructor|exact Hn|exact Hb|exact Ht|intros; discriminate| | |].
      * intros ? ? ? [H|H]; [injection H as <- <- <-; auto|discriminate].
      * intros K. apply rf_inc_ext; auto.
      * intros K. specialize (Ht K). pose proof (total_num _ _ _ Ht) as Hnum.
        destruct (padd (o_count o) v) as [t|e] eqn:Ep.
        -- assert (Htot : total (qualify n) (h ++ [CIncrement n v rate]) t)
             by (eapply to_inc; eauto; apply qualified_iff; auto).
           split; [exact Htot|]. apply sy_inc_ext; auto. destruct (o_count o), v; cbn in *; auto; discriminate.
        -- destruct (o_count o), v; cbn in *; try discriminate; try contradiction;
             injection Ep as <-; (split; [tauto|]); apply rf_inc_str; auto.
    + unfold bnd.
      destruct (metric_of_ok h s (CIncrement n v rate) (qualify n) KPlain rate Hd) as (o & He & Hn & Hb & Ht);
        [apply about_q; constructor| |].
      { replace KPlain with (if m_ext P then KCounter else KPlain) by (rewrite Ex; auto). constructor. }
      rewrite He. eapply sent_step; eauto; [|nc; exact Hr|apply about_q; constructor|apply sy_inc; auto].
      apply (dict_set _ _ _ _ _ ltac:(first [exact Hd|exact Hd2])); [apply about_q; constructor|]. apply obj_fail; auto; try (intros; discriminate).
      intros n0 v0 r0 _. left. eapply plain_kind; eauto.
  - (* decrement *) unfold m_decrement. destruct (m_ext P) eqn:Ex.
    +
      destruct (metric_of_ok h s (CDecrement n v rate) (qualify n) KCounter rate Hd) as (o & He & Hn & Hb & Ht);
        [apply about_q; constructor| |].
      { replace KCounter with (if m_ext P then KCounter else KPlain) by (rewrite Ex; auto). constructor. }
      rewrite (bnd_ok _ _ _ _ _ He). apply (counter_step h s (CDecrement n v rate) (qualify n) o _ v);
        [exact Hd|nc; exact Hr|apply about_q; constructor|exact Hn|exact Hb|exact Ht|intros; discriminate| | |].
      * intros ? ? ? [H|H]; [discriminate|injection H as <- <- <-; auto].
      * intros K. apply rf_dec_ext; auto.
      * intros K. specialize (Ht K). pose proof (total_num _ _ _ Ht) as Hnum.
        destruct (psub (o_count o) v) as [t|e] eqn:Ep.
        -- assert (Htot : total (qualify n) (h ++ [CDecrement n v rate]) t)
             by (eapply to_dec; eauto; apply qualified_iff; auto).
           split; [exact Htot|]. apply sy_dec_ext; auto. destruct (o_count o), v; cbn in *; auto; discriminate.
        -- destruct (o_count o), v; cbn in *; try discriminate; try contradiction;
             injection Ep as <-; (split; [tauto|]); apply rf_dec_str; auto.
    +
      destruct (metric_of_ok h s (CDecrement n v rate) (qualify n) KPlain rate Hd) as (o & He & Hn & Hb & Ht);
        [apply about_q; constructor| |].
      { replace KPlain with (if m_ext P then KCounter else KPlain) by (rewrite Ex; auto). constructor. }
      assert (Hdict : dict_ok (h ++ [CDecrement n v rate]) (<[qualify n:=o]> (cl_metrics s))).
      { apply (dict_set _ _ _ _ _ ltac:(first [exact Hd|exact Hd2])); [apply about_q; constructor|]. apply obj_fail; auto; try (intros; discriminate).
        intros n0 v0 r0 _. left. eapply plain_kind; eauto. }
      rewrite (bnd_ok _ _ _ _ _ He). unfold bnd, lift_. destruct (pneg v) as [w|e] eqn:Ew.
      * eapply sent_step; eauto; [nc; exact Hr|apply about_q; constructor|apply sy_dec; auto].
      * eapply (refused_step _ _ _ (qualify n)); eauto; [nc; exact Hr|apply about_q; constructor|].
        destruct v; try discriminate. injection Ew as <-. apply rf_dec; auto.
  - (* timing *)
    assert (Hdur : exists v n' l', (match d with None => m_calculate_duration E | Some d => ret d end) s =
               (set_last l' (set_ticks n' s), Ok v) /\ lasted E h d v /\
               readings E (h ++ [CTiming n d rate]) n' l').
    { destruct d as [d|].
      - exists d, (cl_ticks s), (cl_last s). split; [destruct s; reflexivity|]. split; [constructor|]. nc. exact Hr.
      - destruct (read_now _ _ _ Hr) as [v Hv]. exists v, (S (cl_ticks s)), (VFlt (c_now E (cl_ticks s))).
        split; [|split; [econstructor; eauto|eapply rd_one; eauto; right; eauto]].
        unfold m_calculate_duration, bnd, now_, get_, lift_, mod_, ret. cbn -[psub]. rewrite Hv. destruct s; reflexivity. }
    destruct Hdur as (v & n' & l' & He' & Hl & Hr'). unfold m_timing. rewrite (bnd_ok _ _ _ _ _ He').
    set (s2 := set_last l' (set_ticks n' s)).
    change (cl_out s) with (cl_out s2). change (cl_draws s) with (cl_draws s2).
    assert (Hd2 : dict_ok h (cl_metrics s2)) by exact Hd.
    destruct (m_ext P) eqn:Ex; unfold bnd.
    + destruct (metric_of_ok h s2 (CTiming n d rate) (qualify n) KTimer rate Hd2) as (o & He & Hn & Hb & Ht);
        [apply about_q; constructor| |].
      { replace KTimer with (if m_ext P then KTimer else KPlain) by (rewrite Ex; auto). constructor. }
      rewrite He. eapply mark1_step; eauto; [|apply about_q; constructor| |].
      * apply (dict_set _ _ _ _ _ ltac:(first [exact Hd|exact Hd2])); [apply about_q; constructor|]. apply obj_fail; auto; try (intros; discriminate).
        intros ? ? ? [H|H]; discriminate.
      * intros data Hm. eapply sy_timing_ext; eauto.
      * intros Hk. apply rf_timing; auto.
    + destruct (metric_of_ok h s2 (CTiming n d rate) (qualify n) KPlain rate Hd2) as (o & He & Hn & Hb & Ht);
        [apply about_q; constructor| |].
      { replace KPlain with (if m_ext P then KTimer else KPlain) by (rewrite Ex; auto). constructor. }
      rewrite He. eapply sent_step; eauto; [|apply about_q; constructor|apply sy_timing; auto].
      apply (dict_set _ _ _ _ _ ltac:(first [exact Hd|exact Hd2])); [apply about_q; constructor|]. apply obj_fail; auto; try (intros; discriminate).
      intros ? ? ? [H|H]; discriminate.
  - (* distinct *) unfold m_distinct, bnd.
    destruct (metric_of_ok h s (CDistinct n v) (qualify n) KDistinct (VInt 1) Hd) as (o & He & Hn & Hb & Ht);
      [apply about_q; constructor|constructor|]. rewrite He.
    eapply mark1_step; eauto; [|nc; exact Hr|apply about_q; constructor| |]; try (intros; constructor; auto; fail).
    apply (dict_set _ _ _ _ _ ltac:(first [exact Hd|exact Hd2])); [apply about_q; constructor|]. apply obj_fail; auto; try (intros; discriminate).
    intros ? ? ? [H|H]; discriminate.
  - (* clear *) unfold m_clear. rewrite (bnd_ok get_ _ s s s eq_refl).
    assert (Hop : forall q, about (CClear n) q -> forall k r, ~ opens (CClear n) k r) by (intros ? _ ? ? H; inversion H).
    pose proof (Hd (qualify n)) as Hq. destruct (cl_metrics s !! qualify n) as [o|] eqn:Eq.
    + destruct Hq as (Hn & Hb & Ht). destruct (kind_counter (o_kind o)) as [K|K].
      * rewrite K.
        assert (Hup : counter_update E P o (Ok (VInt 0)) s =
                      send E P (set_count (VInt 0) o) (show E (VInt 0) ++ B "|c") (redict (<[qualify n := set_count (VInt 0) o]> (cl_metrics s)) s)).
        { rewrite <- (update_send (qualify n)) by auto. destruct s; reflexivity. }
        rewrite Hup.
        eapply sent_step; eauto.
        -- apply (dict_set _ _ _ _ _ ltac:(first [exact Hd|exact Hd2])); [apply about_q; constructor|]. split; [exact Hn|]. split; [apply bound_app; exact Hb|].
           intros _. eapply to_clear; [apply qualified_iff; auto|apply (Ht K)].
        -- nc. exact Hr.
        -- apply about_q; constructor.
        -- apply bound_app. exact Hb.
        -- apply (sy_clear _ _ _ _ _ n). exact K.
      * rewrite (match_counter _ _ _ K). split.
        -- split; [|nc; exact Hr]. apply dict_other; auto. intros q o' Ha Ho' Hk.
           assert (q = qualify n) as -> by (eapply about_fun; [exact Ha|apply about_q; constructor]).
           change (cl_metrics s !! qualify n = Some o') in Ho'. rewrite Eq in Ho'; first [discriminate|injection Ho' as <-; contradiction].
        -- exists []. rewrite app_nil_r. split; [reflexivity|]. eapply ef_idle; [apply qualified_iff; reflexivity|].
           intros r H. apply K. eapply bound_fun; eauto.
    + split.
      * split; [|nc; exact Hr]. apply dict_other; auto. intros q o' Ha Ho' Hk.
        assert (q = qualify n) as -> by (eapply about_fun; [exact Ha|apply about_q; constructor]).
           change (cl_metrics s !! qualify n = Some o') in Ho'. rewrite Eq in Ho'; first [discriminate|injection Ho' as <-; contradiction].
      * exists []. rewrite app_nil_r. split; [reflexivity|]. eapply ef_idle; [apply qualified_iff; reflexivity|].
        intros r. apply free_not_bound. exact Hq.
  - (* reset_timing *) unfold m_reset_timing, bnd, now_, mod_. cbn. split.
    + split; [|eapply rd_one; [left; reflexivity|exact Hr]].
      assert (Hna : forall q, ~ about CResetTiming q) by (intros q (n & H & _); inversion H).
      apply dict_other; auto; intros q; [|intros o]; intros Ha; destruct (Hna q Ha).
    + exists []. rewrite app_nil_r. split; [reflexivity|]. constructor.
Qed.

Theorem history_ok h : inv h (calls E P h cl_init).
Proof.
  induction h as [|c h IH] using rev_ind.
  - split; [|constructor]. intros q. cbn. rewrite lookup_empty. intros c [].
  - unfold calls. rewrite fold_left_app. cbn. apply call_ok. exact IH.
Qed.

(** every call of every history has the effect the specification says *)
Theorem api_effect h c :
  let s := calls E P h cl_init in
  exists out, cl_out (fst (do_call c s)) = cl_out s ++ out /\
    effect h (c_rand E (cl_draws s)) c out (snd (do_call c s)).
Proof. apply call_ok. apply history_ok. Qed.
End facts.
