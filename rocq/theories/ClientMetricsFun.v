(** The specification of the client API determines the effect of every call, and
    what follows from it. *)
From Verif Require Import Base StrFacts Num ClientMetrics ClientMetricsSpec ClientMetricsFacts.

Section fun_.
Context `{NN : Num} (E : cenv) (P : mconf).

Lemma snoc_inv {A} (h h' : list A) c c' : h ++ [c] = h' ++ [c'] -> h = h' /\ c = c'.
Proof. apply app_inj_tail. Qed.
Lemma snoc_nil {A} (h : list A) c : h ++ [c] <> [].
Proof. destruct h; discriminate. Qed.

Lemma padd_num a b t : padd a b = Ok t -> is_num b.
Proof. destruct a, b; cbn; intros; try discriminate; exact Logic.I. Qed.
Lemma psub_num a b t : psub a b = Ok t -> is_num b.
Proof. destruct a, b; cbn; intros; try discriminate; exact Logic.I. Qed.

Lemma total_fun q h t t' : total P q h t -> total P q h t' -> t = t'.
Proof.
  intros H. revert t'.
  induction H as [|h n v r t u Hq Ht IH Hp|h n v r t u Hq Ht IH Hp|h n t Hq Ht IH|h c t H1 H2 Ht IH]; intros t' H';
    inversion H' as [E0|h' n' v' r' w w' Hq' Ht' Hp' E0|h' n' v' r' w w' Hq' Ht' Hp' E0|h' n' w Hq' Ht' E0|h' c' w H1' H2' Ht' E0];
    subst; try reflexivity; try (exfalso; eapply snoc_nil; eauto; fail);
    apply snoc_inv in E0 as [<- E0]; try discriminate; subst.
  - injection E0 as -> -> ->. rewrite (IH _ Ht') in Hp. congruence.
  - exfalso. apply H1'. eexists _, _, _. split; [left; reflexivity|]. split; [eapply padd_num; eauto|auto].
  - injection E0 as -> -> ->. rewrite (IH _ Ht') in Hp. congruence.
  - exfalso. apply H1'. eexists _, _, _. split; [right; reflexivity|]. split; [eapply psub_num; eauto|auto].
  - exfalso. apply H2'. eauto.
  - exfalso. apply H1. eexists _, _, _. split; [left; reflexivity|]. split; [eapply padd_num; eauto|auto].
  - exfalso. apply H1. eexists _, _, _. split; [right; reflexivity|]. split; [eapply psub_num; eauto|auto].
  - exfalso. apply H2. eauto.
  - apply IH. exact Ht'.
Qed.
Lemma readings_fun h n l n' l' : readings E h n l -> readings E h n' l' -> n = n' /\ l = l'.
Proof.
  intros H. revert n' l'. induction H as [|h c n l Hc Hr IH|h c n l Hc Hr IH]; intros n' l' H';
    inversion H' as [E0|h' c' m k Hc' Hr' E0|h' c' m k Hc' Hr' E0]; subst; auto;
    try (exfalso; eapply snoc_nil; eauto; fail);
    apply snoc_inv in E0 as [<- <-]; try contradiction; destruct (IH _ _ Hr') as [-> ->]; auto.
Qed.
Lemma lasted_fun h d v v' : lasted E h d v -> lasted E h d v' -> v = v'.
Proof.
  intros H H'. destruct H as [d|n l d Hr Hp]; inversion H' as [?|n' l' ? Hr' Hp']; subst; auto.
  destruct (readings_fun _ _ _ _ _ Hr Hr') as [-> ->]. congruence.
Qed.
Lemma marks_fun k v d d' : marks E k v d -> marks E k v d' -> d = d'.
Proof. intros H H'. inversion H; subst; inversion H'; auto. Qed.

Lemma says_fun h q k c d d' : says E P h q k c d -> says E P h q k c d' -> d = d'.
Proof.
  intros H H'. inversion H; subst; inversion H'; subst; try congruence;
    repeat match goal with
           | A : total P ?q ?h _, A' : total P ?q ?h _ |- _ => pose proof (total_fun _ _ _ _ A A'); clear A'; subst
           | A : marks E ?k ?v _, A' : marks E ?k ?v _ |- _ => pose proof (marks_fun _ _ _ _ A A'); clear A'; subst
           | A : lasted E ?h ?d _, A' : lasted E ?h ?d _ |- _ => pose proof (lasted_fun _ _ _ _ A A'); clear A'; subst
           end; try congruence; auto.
Qed.
Lemma marks_not k v d : marks E k v d -> no_mark k -> False.
Proof. intros H [-> | ->]; inversion H. Qed.
Lemma says_refuses h q k c d e : says E P h q k c d -> refuses P k c e -> False.
Proof.
  intros H H'. inversion H; subst; inversion H'; subst; try congruence;
    try match goal with A : marks _ _ _ _, A' : no_mark _ |- _ => exact (marks_not _ _ _ A A') end;
    try match goal with A : no_mark (KGeneric _) |- _ => destruct A; discriminate end;
    try match goal with A : ~ generic (KGeneric ?k) |- _ => apply A; exists k; reflexivity end.
  all: try (cbn in *; contradiction).
  all: try discriminate.
Qed.
Lemma refuses_fun k c e e' : refuses P k c e -> refuses P k c e' -> e = e'.
Proof. intros H H'. inversion H; subst; inversion H'; subst; try reflexivity; try contradiction; congruence. Qed.
Lemma reaches_fun m out e out' e' : reaches P m out e -> reaches P m out' e' -> out = out' /\ e = e'.
Proof.
  intros H H'. inversion H; subst; inversion H'; subst; auto; try congruence.
  - match goal with A : forall c, _ -> _, A' : In ?c _ |- _ => specialize (A c A'); lia end.
  - match goal with A : forall c, _ -> _, A' : In ?c _ |- _ => specialize (A c A'); lia end.
Qed.
Lemma transmits_fun q r x d out e out' e' : transmits E P q r x d out e -> transmits E P q r x d out' e' -> out = out' /\ e = e'.
Proof.
  intros H H'. inversion H; subst; inversion H'; subst; try congruence; auto; eapply reaches_fun; eauto.
Qed.

Lemma bound_clear h n q k r : qualified (m_ns P) n q -> bound P (h ++ [CClear n]) q k r -> bound P h q k r.
Proof.
  intros Hq (h1 & c & h2 & Hh & Ha & Ho & Hf). destruct h2 as [|c2 h2 _] using rev_ind.
  - apply snoc_inv in Hh as [-> <-]. inversion Ho.
  - rewrite app_comm_cons, app_assoc in Hh. apply snoc_inv in Hh as [-> _]. exists h1, c, h2. auto.
Qed.

Theorem effect_fun h x c out e out' e' : effect E P h x c out e -> effect E P h x c out' e' -> out = out' /\ e = e'.
Proof.
  intros H H'.
  inversion H as [|n q Hq Hb|c1 q k r e1 Ha Hb Hr|c1 q k r d o1 e1 Ha Hb Hs Ht]; subst;
  inversion H' as [|n' q' Hq' Hb'|c1' q' k' r' e1' Ha' Hb' Hr'|c1' q' k' r' d' o1' e1' Ha' Hb' Hs' Ht']; subst; auto;
    repeat match goal with
      | A : about P CResetTiming _ |- _ => destruct A as (? & A & _); inversion A
      | A : refuses _ _ (CClear _) _ |- _ => inversion A
      end.
  - inversion Hs'; subst. exfalso. eapply (Hb r').
    assert (q' = q) as -> by (eapply about_fun; [exact Ha'|exists n; split; [constructor|auto]]).
    eapply bound_clear; eauto.
  - assert (q = q') as -> by (eapply about_fun; eauto). destruct (bound_fun _ _ _ _ _ _ _ Hb Hb') as [<- <-].
    split; [auto|]. f_equal. eapply refuses_fun; eauto.
  - assert (q = q') as -> by (eapply about_fun; eauto). destruct (bound_fun _ _ _ _ _ _ _ Hb Hb') as [<- <-].
    exfalso. eapply says_refuses; eauto.
  - inversion Hs; subst. exfalso. eapply (Hb' r).
    assert (q = q') as -> by (eapply about_fun; [exact Ha|exists n'; split; [constructor|auto]]).
    eapply bound_clear; eauto.
  - assert (q = q') as -> by (eapply about_fun; eauto). destruct (bound_fun _ _ _ _ _ _ _ Hb Hb') as [<- <-].
    exfalso. eapply says_refuses; eauto.
  - assert (q = q') as -> by (eapply about_fun; eauto). destruct (bound_fun _ _ _ _ _ _ _ Hb Hb') as [<- <-].
    rewrite (says_fun _ _ _ _ _ _ Hs Hs') in Ht. eapply transmits_fun; eauto.
Qed.

(** ** the messages and result of a call *)
Definition outcome (h : list call) (c : call) : list str * res unit :=
  let s := calls E P h cl_init in
  let s' := fst (do_call E P c s) in
  (skipn (length (cl_out s)) (cl_out s'), snd (do_call E P c s)).
Definition next_draw (h : list call) : num := c_rand E (cl_draws (calls E P h cl_init)).

Theorem outcome_iff h c out e : outcome h c = (out, e) <-> effect E P h (next_draw h) c out e.
Proof.
  assert (Hx : forall o r, outcome h c = (o, r) -> effect E P h (next_draw h) c o r).
  { intros o r Ho. destruct (api_effect E P h c) as (o1 & H1 & H2). unfold outcome in Ho. rewrite H1 in Ho.
    rewrite skipn_app, skipn_all, Nat.sub_diag in Ho. cbn in Ho. injection Ho as <- <-. exact H2. }
  split; [apply Hx|]. intros H. destruct (outcome h c) as [o r] eqn:Eo. specialize (Hx _ _ eq_refl).
  destruct (effect_fun _ _ _ _ _ _ _ H Hx) as [-> ->]. reflexivity.
Qed.
(** the messages of a history are those of its calls *)
Lemma calls_out h c : cl_out (calls E P (h ++ [c]) cl_init) = cl_out (calls E P h cl_init) ++ fst (outcome h c).
Proof.
  unfold outcome, calls. rewrite fold_left_app. cbn.
  destruct (api_effect E P h c) as (o1 & H1 & H2). unfold calls in H1. rewrite H1.
  rewrite skipn_app, skipn_all, Nat.sub_diag. reflexivity.
Qed.

(** every call that gets to speak *)
Theorem spoken h c q k r data : about P c q -> bound P (h ++ [c]) q k r -> says E P h q k c data ->
  m_conn P = true ->
  (below_one r = false -> (forall a, In a (q ++ B ":" ++ data) -> (N_of_ascii a < 128)%N) ->
     outcome h c = ([q ++ B ":" ++ data], Ok tt)) /\
  (below_one r = true -> above (next_draw h) r = true -> outcome h c = ([], Ok tt)) /\
  (below_one r = true -> above (next_draw h) r = false ->
     (forall a, In a (q ++ B ":" ++ data ++ B "|@" ++ show E r) -> (N_of_ascii a < 128)%N) ->
     outcome h c = ([q ++ B ":" ++ data ++ B "|@" ++ show E r], Ok tt)).
Proof.
  intros Ha Hb Hs Hc. repeat split.
  - intros Hr Hm. apply outcome_iff. eapply ef_say; eauto. apply tr_full; auto. apply re_sent; auto.
  - intros Hr Hx. apply outcome_iff. eapply ef_say; eauto. apply tr_skipped; auto.
  - intros Hr Hx Hm. apply outcome_iff. eapply ef_say; eauto. apply tr_kept; auto. apply re_sent; auto.
Qed.
(** what is written starts with the full name and a colon; at most one message *)
Theorem messages_named h c : exists e, snd (outcome h c) = e /\
  (fst (outcome h c) = [] \/ exists n q rest, names c n /\ qualified (m_ns P) n q /\
     fst (outcome h c) = [q ++ B ":" ++ rest] /\ e = Ok tt).
Proof.
  destruct (outcome h c) as [out e] eqn:Eo. exists e. split; [auto|]. cbn. apply outcome_iff in Eo.
  inversion Eo as [|n q Hq Hb|c1 q k r e1 Ha Hb Hr|c1 q k r d o1 e1 Ha Hb Hs Ht]; subst; auto.
  destruct Ha as (n & Hn & Hq).
  inversion Ht as [? ? ? R|? ? ? ? R|]; subst; auto; inversion R; subst; auto; right;
    (eexists _, _, _; split; [exact Hn|]; split; [exact Hq|]; split; reflexivity).
Qed.
(** a later call uses the rate of the first *)
Theorem first_rate h c q k r m : bound P h q k r -> about P c q -> In m (fst (outcome h c)) ->
  exists data, says E P h q k c data /\
    (below_one r = false /\ m = q ++ B ":" ++ data \/
     below_one r = true /\ above (next_draw h) r = false /\ m = q ++ B ":" ++ data ++ B "|@" ++ show E r).
Proof.
  intros Hb Ha Hm. destruct (outcome h c) as [out e] eqn:Eo. apply outcome_iff in Eo. cbn in Hm.
  inversion Eo as [|n q1 Hq Hb1|c1 q1 k1 r1 e1 Ha1 Hb1 Hr|c1 q1 k1 r1 d o1 e1 Ha1 Hb1 Hs Ht]; subst; try (destruct Hm; fail).
  assert (q1 = q) as -> by (eapply about_fun; eauto).
  destruct (bound_fun _ _ _ _ _ _ _ Hb1 (bound_app _ _ c _ _ _ Hb)) as [-> ->].
  exists d; split; [exact Hs|]. inversion Ht as [? ? ? R|? ? ? ? R|]; subst; try (destruct Hm; fail);
    inversion R; subst; try (destruct Hm; fail); destruct Hm as [<-|[]]; auto.
Qed.
End fun_.
