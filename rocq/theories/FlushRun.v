(** A flush that is run to completion with nothing in between, in direct style. *)
From Verif Require Import Base StrFacts Num Env Stats Glob Metrics Gen GenFacts Processor.

(** writer/state/exception programs *)
Section wr.
Context `{NN : Num} {S : Type}.
Definition W (A : Type) : Type := S -> S * list dp * res A.
Definition wret {A} (a : A) : W A := fun s => (s, [], Ok a).
Definition wbind {A D} (m : W A) (k : A -> W D) : W D := fun s =>
  match m s with
  | (s1, l1, Ok a) => let '(s2, l2, r) := k a s1 in (s2, l1 ++ l2, r)
  | (s1, l1, Exn e) => (s1, l1, Exn e)
  end.
Definition wend (t : S * list dp * res unit) : S * list dp * option exn :=
  match t with (s, l, Ok _) => (s, l, None) | (s, l, Exn e) => (s, l, Some e) end.
(** [g] runs like the program [m] *)
Definition runs (g : gen S) (m : W unit) : Prop := forall s, grun g s = wend (m s).
Definition loop_runs (loop : (Z -> gen S) -> gen S) (m : W Z) : Prop :=
  forall k s, grun (loop k) s = resume k (m s).
Lemma loop_bind loop m k kk : loop_runs loop m -> (forall n, runs (k n) (kk n)) -> runs (loop k) (wbind m kk).
Proof.
  intros Hl Hk s. rewrite Hl. unfold wbind, resume. destruct (m s) as [[s1 l1] [n|e]]; [|reflexivity].
  rewrite (Hk n s1). destruct (kk n s1) as [[s2 l2] [[]|e]]; reflexivity.
Qed.
Lemma runs_act f (m : W unit) : (forall s, exists s1 m1, fst (f s) = s1 /\ runs (snd (f s)) m1 /\ m s = m1 s1) ->
  runs (GAct f) m.
Proof.
  intros H s. destruct (H s) as (s1 & m1 & H1 & H2 & H3). cbn [grun]. destruct (f s) as [s' g'].
  cbn in H1, H2. subst s'. rewrite (H2 s1), H3. reflexivity.
Qed.
End wr.
Arguments W {NN} S A.

(** ** Loops over a dictionary component *)
Section dict.
Context `{NN : Num} {TM CM GM : Type} (E : env).
Notation st := (pst TM CM GM).
Context {V : Type} (d : st -> gmap str V)
  (visit : str -> V -> st -> st * res (option (list dp * (st -> st * res unit)))).
Definition visit' (key : str) (s : st) :=
  match d s !! key with Some v => visit key v s | None => (s, Ok None) end.
Definition wdict : W st Z := fun s =>
  let '(ks, w) := dict_keys E (d s) (p_w s) in vrun visit' ks 0 (set_w w s).

Lemma gdict_runs :
  (forall w s, d (set_w w s) = d s) ->
  (forall key v s, d s !! key = Some v ->
     match visit key v s with
     | (s', Ok (Some (ms, post))) => size (d s') = size (d s) /\ size (d (fst (post s'))) = size (d s)
     | (s', Ok None) => size (d s') = size (d s)
     | (_, Exn _) => True
     end) ->
  loop_runs (gdict E d visit) wdict.
Proof.
  intros Hw Hv k s. unfold gdict, wdict. cbn [grun]. destruct (dict_keys E (d s) (p_w s)) as [ks w].
  apply (grun_giter (fun s' => size (d s') =? size (d s))%nat visit' (fun s' => size (d s') = size (d s))).
  - intros s' ->. apply Nat.eqb_refl.
  - intros key s' Hs'. unfold visit'. destruct (d s' !! key) as [v|] eqn:Ev; [|exact Hs'].
    specialize (Hv key v s' Ev). destruct (visit key v s') as [s1 [[[ms post]|]|e]]; [|congruence|exact I].
    destruct Hv as [H1 H2]. split; congruence.
  - cbn. rewrite Hw. reflexivity.
Qed.
End dict.

(** a component of the state that only its own loop touches *)
Record lens `{NN : Num} {TM CM GM : Type} (V : Type) := Lens {
  lget : pst TM CM GM -> gmap str V;
  lput : gmap str V -> pst TM CM GM -> pst TM CM GM;
  lgp : forall m s, lget (lput m s) = m;
  lpp : forall m m' s, lput m (lput m' s) = lput m s;
  lpg : forall s, lput (lget s) s = s;
  lgw : forall w s, lget (set_w w s) = lget s;
  lpw : forall m w s, lput m (set_w w s) = set_w w (lput m s);
  lwp : forall m s, p_w (lput m s) = p_w s }.
Arguments Lens {NN TM CM GM V}. Arguments lget {NN TM CM GM V}. Arguments lput {NN TM CM GM V}.
Arguments lgp {NN TM CM GM V}. Arguments lpp {NN TM CM GM V}. Arguments lpg {NN TM CM GM V}.
Arguments lgw {NN TM CM GM V}. Arguments lpw {NN TM CM GM V}. Arguments lwp {NN TM CM GM V}.
Arguments lens {NN} TM CM GM V.

Ltac mk p q := refine (Lens p q _ _ _ _ _ _);
  [intros; reflexivity|intros; reflexivity|intros [? ? ? ? ? ? ? ? ? ? ? ?]; reflexivity
  |intros; reflexivity|intros; reflexivity|intros; reflexivity].
Definition Lt `{NN : Num} TM CM GM : lens TM CM GM TM. mk (@p_timer NN TM CM GM) (@set_timer NN TM CM GM). Defined.
Definition Lc `{NN : Num} TM CM GM : lens TM CM GM CM. mk (@p_counter NN TM CM GM) (@set_counter NN TM CM GM). Defined.
Definition Lg `{NN : Num} TM CM V : lens TM CM (gmap str V) V.
  mk (@p_gauge NN TM CM (gmap str V)) (@set_gauge NN TM CM (gmap str V)). Defined.
Definition Lm `{NN : Num} TM CM GM : lens TM CM GM meter. mk (@p_meter NN TM CM GM) (@set_meter NN TM CM GM). Defined.
Definition Lp `{NN : Num} TM CM GM : lens TM CM GM plug. mk (@p_plug NN TM CM GM) (@set_plug NN TM CM GM). Defined.

Section frun.
Context `{NN : Num} {V : Type}.
(** what one visit does: new value, items *)
Context (f : str -> V -> world -> V * res (option (list dp)) * world).
Fixpoint frun (ks : list str) (m : gmap str V) (n : Z) (w : world)
  : gmap str V * world * list dp * res Z :=
  match ks with
  | [] => (m, w, [], Ok n)
  | k :: ks' =>
      match m !! k with
      | None => frun ks' m n w
      | Some v =>
          let '(v', r, w1) := f k v w in
          let m1 := <[k := v']> m in
          match r with
          | Exn e => (m1, w1, [], Exn e)
          | Ok None => frun ks' m1 n w1
          | Ok (Some ms) => let '(m2, w2, l, r2) := frun ks' m1 (n + 1) w1 in (m2, w2, ms ++ l, r2)
          end
      end
  end.

Definition emitted (outs : list (option (list dp))) : list dp := concat (map (default []) outs).
Definition groups (outs : list (option (list dp))) : Z :=
  Z.of_nat (length (List.filter (fun o => match o with Some _ => true | None => false end) outs)).

Lemma frun_ok ks : forall m n w m' w' l n', NoDup ks -> Forall (fun k => is_Some (m !! k)) ks ->
  frun ks m n w = (m', w', l, Ok n') ->
  (forall k, k ∉ ks -> m' !! k = m !! k) /\
  exists outs, Forall2 (fun k o => exists v v' wa wb, m !! k = Some v /\ f k v wa = (v', Ok o, wb) /\
                                   m' !! k = Some v') ks outs /\
    l = emitted outs /\ n' = n + groups outs.
Proof.
  induction ks as [|k ks IH]; intros m n w m' w' l n' Hnd Hin H; cbn [frun] in H.
  - injection H as <- <- <- <-. split; [auto|]. exists []. repeat split; [constructor|]. unfold groups. cbn. lia.
  - inversion Hnd as [|? ? Hk Hnd']; subst. inversion Hin as [|? ? Hs Hin']; subst.
    destruct Hs as [v Hv]. rewrite Hv in H. destruct (f k v w) as [[v' r] w1] eqn:Ef.
    assert (Hin1 : Forall (fun k0 => is_Some (<[k:=v']> m !! k0)) ks).
    { eapply Forall_impl; [exact Hin'|]. intros k0 [x Hx].
      destruct (decide (k = k0)) as [<-|Hne]; [rewrite lookup_insert; eauto|rewrite lookup_insert_ne by auto; eauto]. }
    destruct r as [[ms|]|e]; [| |discriminate].
    + destruct (frun ks (<[k:=v']> m) (n + 1) w1) as [[[m2 w2] l2] r2] eqn:Er.
      injection H as <- <- <- ->. destruct (IH _ _ _ _ _ _ _ Hnd' Hin1 Er) as (H1 & outs & H2 & -> & ->).
      split.
      * intros k0 Hk0. apply not_elem_of_cons in Hk0. destruct Hk0 as [Ha Hb].
        rewrite H1 by auto. apply lookup_insert_ne. auto.
      * exists (Some ms :: outs). repeat split.
        -- constructor.
           ++ exists v, v', w, w1. split; [auto|]. split; [exact Ef|]. rewrite H1 by auto. apply lookup_insert.
           ++ clear -H2 Hk. induction H2 as [|k0 o ks outs (v0 & v0' & wa & wb & A1 & A2 & A3) _ IH]; constructor.
              ** exists v0, v0', wa, wb. apply not_elem_of_cons in Hk. rewrite lookup_insert_ne in A1 by tauto. auto.
              ** apply IH. apply not_elem_of_cons in Hk. tauto.
        -- unfold groups. cbn [List.filter List.length]. lia.
    + destruct (IH _ _ _ _ _ _ _ Hnd' Hin1 H) as (H1 & outs & H2 & -> & ->).
      split.
      * intros k0 Hk0. apply not_elem_of_cons in Hk0. destruct Hk0 as [Ha Hb].
        rewrite H1 by auto. apply lookup_insert_ne. auto.
      * exists (None :: outs). repeat split.
        constructor.
        ++ exists v, v', w, w1. split; [auto|]. split; [exact Ef|]. rewrite H1 by auto. apply lookup_insert.
        ++ clear -H2 Hk. induction H2 as [|k0 o ks outs (v0 & v0' & wa & wb & A1 & A2 & A3) _ IH]; constructor.
           ** exists v0, v0', wa, wb. apply not_elem_of_cons in Hk. rewrite lookup_insert_ne in A1 by tauto. auto.
           ** apply IH. apply not_elem_of_cons in Hk. tauto.
Qed.

(** it raises only if some visit does *)
Lemma frun_total ks : forall m n w, NoDup ks ->
  (forall k v wa, k ∈ ks -> m !! k = Some v -> exists o, snd (fst (f k v wa)) = Ok o) ->
  exists m' w' l n', frun ks m n w = (m', w', l, Ok n').
Proof.
  induction ks as [|k ks IH]; intros m n w Hnd Hf; cbn [frun]; [eauto|].
  inversion Hnd as [|? ? Hk Hnd']; subst.
  destruct (m !! k) as [v|] eqn:Hv.
  2:{ apply IH; auto. intros k0 v wa H0. apply Hf. apply elem_of_cons. auto. }
  destruct (Hf k v w ltac:(apply elem_of_cons; auto) Hv) as [o Ho].
  destruct (f k v w) as [[v' r] w1] eqn:Ef. cbn in Ho. subst r.
  assert (Hrec : forall n1, exists m' w' l n', frun ks (<[k:=v']> m) n1 w1 = (m', w', l, Ok n')).
  { intros n1. apply IH; auto. intros k0 v0 wa H0 H1. rewrite lookup_insert_ne in H1 by (intros ->; auto).
    apply Hf; [apply elem_of_cons; auto|exact H1]. }
  destruct o as [ms|]; [|apply Hrec].
  destruct (Hrec (n + 1)) as (m' & w' & l & n' & ->). eauto.
Qed.

(** the keys visited up to a failing one *)
Lemma frun_fail ks : forall m n w m' w' l e, NoDup ks ->
  frun ks m n w = (m', w', l, Exn e) ->
  exists k v wa v' wb, k ∈ ks /\ m !! k = Some v /\ f k v wa = (v', Exn e, wb).
Proof.
  induction ks as [|k ks IH]; intros m n w m' w' l e Hnd H; cbn [frun] in H; [discriminate|].
  inversion Hnd as [|? ? Hk Hnd']; subst.
  assert (Hup : forall v', (exists k0 v wa v2 wb, k0 ∈ ks /\ <[k:=v']> m !! k0 = Some v /\ f k0 v wa = (v2, Exn e, wb)) ->
    exists k0 v wa v2 wb, k0 ∈ k :: ks /\ m !! k0 = Some v /\ f k0 v wa = (v2, Exn e, wb)).
  { intros v' (k0 & v & wa & v2 & wb & H1 & H2 & H3). rewrite lookup_insert_ne in H2 by (intros ->; auto).
    exists k0, v, wa, v2, wb. split; [apply elem_of_cons; auto|auto]. }
  destruct (m !! k) as [v|] eqn:Hv.
  - destruct (f k v w) as [[v' r] w1] eqn:Ef. destruct r as [[ms|]|e1].
    + destruct (frun ks (<[k:=v']> m) (n + 1) w1) as [[[m2 w2] l2] r2] eqn:Er.
      injection H as <- <- <- ->. apply (Hup v'). eapply IH; [auto|exact Er].
    + apply (Hup v'). eapply IH; [auto|exact H].
    + injection H as <- <- <- <-. exists k, v, w, v', w1. split; [apply elem_of_cons; auto|auto].
  - destruct (IH _ _ _ _ _ _ _ Hnd' H) as (k0 & v & wa & v2 & wb & H1 & H2 & H3).
    exists k0, v, wa, v2, wb. split; [apply elem_of_cons; auto|auto].
Qed.
End frun.

Section lensrun.
Context `{NN : Num} {TM CM GM V : Type} (E : env) (L : lens TM CM GM V).
Notation st := (pst TM CM GM).
Context (visit : str -> V -> st -> st * res (option (list dp * (st -> st * res unit))))
        (f : str -> V -> world -> V * res (option (list dp)) * world).
(** [visit] is [f] acting on its own component *)
Definition visits_as : Prop := forall key v s, lget L s !! key = Some v ->
  visit key v s =
    let '(v', r, w) := f key v (p_w s) in
    (set_w w (lput L (<[key := v']> (lget L s)) s),
     match r with Exn e => Exn e | Ok None => Ok None | Ok (Some ms) => Ok (Some (ms, no_post)) end).

Lemma vrun_frun (Hv : visits_as) ks : forall n s,
  vrun (visit' (lget L) visit) ks n s =
    let '(m', w', l, r) := frun f ks (lget L s) n (p_w s) in (set_w w' (lput L m' s), l, r).
Proof.
  induction ks as [|k ks IH]; intros n s; cbn [vrun frun].
  - rewrite lpg. destruct s; reflexivity.
  - unfold visit' at 1. destruct (lget L s !! k) as [v|] eqn:Ev; [|apply IH].
    rewrite (Hv k v s Ev). destruct (f k v (p_w s)) as [[v' r] w1]. destruct r as [[ms|]|e].
    + unfold no_post at 1. rewrite IH. cbn [p_w set_w]. rewrite lgw, lgp.
      destruct (frun f ks (<[k:=v']> (lget L s)) (n + 1) w1) as [[[m2 w2] l2] r2].
      rewrite lpw, lpp. reflexivity.
    + rewrite IH. cbn [p_w set_w]. rewrite lgw, lgp.
      destruct (frun f ks (<[k:=v']> (lget L s)) n w1) as [[[m2 w2] l2] r2].
      rewrite lpw, lpp. reflexivity.
    + reflexivity.
Qed.

Definition wlens : W st Z := fun s =>
  let '(ks, w) := dict_keys E (lget L s) (p_w s) in
  let '(m', w', l, r) := frun f ks (lget L s) 0 w in (set_w w' (lput L m' s), l, r).
Lemma lens_runs : visits_as -> loop_runs (gdict E (lget L) visit) wlens.
Proof.
  intros Hv k s. rewrite (gdict_runs E (lget L) visit (lgw L)).
  - unfold wdict, wlens. destruct (dict_keys E (lget L s) (p_w s)) as [ks w]. f_equal.
    rewrite (vrun_frun Hv). cbn [p_w set_w]. rewrite lgw.
    destruct (frun f ks (lget L s) 0 w) as [[[m2 w2] l2] r2]. rewrite lpw. reflexivity.
  - intros key v s1 Hk. rewrite (Hv key v s1 Hk). destruct (f key v (p_w s1)) as [[v' r] w1].
    assert (Hs : size (lget L (set_w w1 (lput L (<[key:=v']> (lget L s1)) s1))) = size (lget L s1)).
    { rewrite lgw, lgp. apply map_size_insert_Some. eauto. }
    destruct r as [[ms|]|e]; auto.
Qed.

(** what a completed run gives: every entry visited once *)
Lemma keys_perm (m : gmap str V) w : fst (dict_keys E m w) ≡ₚ (map_to_list m).*1.
Proof. apply e_ord_perm. Qed.
Lemma keys_nodup (m : gmap str V) w : NoDup (fst (dict_keys E m w)).
Proof. rewrite keys_perm. apply NoDup_fst_map_to_list. Qed.
Lemma keys_in (m : gmap str V) w k : k ∈ fst (dict_keys E m w) <-> is_Some (m !! k).
Proof.
  rewrite keys_perm, elem_of_list_fmap. split.
  - intros ([k' v] & -> & H). apply elem_of_map_to_list in H. eauto.
  - intros [v H]. exists (k, v). split; [reflexivity|]. apply elem_of_map_to_list. exact H.
Qed.

Lemma wlens_ok s s' l n : wlens s = (s', l, Ok n) ->
  exists ks outs m' w', ks ≡ₚ (map_to_list (lget L s)).*1 /\ NoDup ks /\
    s' = set_w w' (lput L m' s) /\ dom m' = dom (lget L s) /\
    Forall2 (fun k o => exists v v' wa wb, lget L s !! k = Some v /\ f k v wa = (v', Ok o, wb) /\
                                           m' !! k = Some v') ks outs /\
    l = emitted outs /\ n = groups outs.
Proof.
  unfold wlens. pose proof (keys_perm (lget L s) (p_w s)) as Hp. pose proof (keys_nodup (lget L s) (p_w s)) as Hn.
  pose proof (keys_in (lget L s) (p_w s)) as Hi.
  destruct (dict_keys E (lget L s) (p_w s)) as [ks w]. cbn [fst] in *.
  destruct (frun f ks (lget L s) 0 w) as [[[m2 w2] l2] r2] eqn:Er. intros [= <- <- ->].
  destruct (frun_ok f ks _ _ _ _ _ _ _ Hn ltac:(apply Forall_forall; intros k Hk; apply Hi; exact Hk) Er)
    as (H1 & outs & H2 & H3 & H4).
  exists ks, outs, m2, w2. refine (conj Hp (conj Hn (conj eq_refl (conj _ (conj H2 (conj H3 _)))))); [|lia].
  apply set_eq. intros k. rewrite !elem_of_dom. destruct (decide (k ∈ ks)) as [Hk|Hk].
  - assert (Hs : exists v', m2 !! k = Some v').
    { clear -H2 Hk. induction H2 as [|k0 o ks outs (v & v' & wa & wb & A & Bq & D) _ IH]; [inversion Hk|].
      apply elem_of_cons in Hk. destruct Hk as [->|Hk]; eauto. }
    split; intros _; [apply Hi; exact Hk|exact Hs].
  - rewrite (H1 k Hk). reflexivity.
Qed.

Lemma wlens_total s : (forall k v wa, lget L s !! k = Some v -> exists o, snd (fst (f k v wa)) = Ok o) ->
  exists s' l n, wlens s = (s', l, Ok n).
Proof.
  intros H. unfold wlens. pose proof (keys_nodup (lget L s) (p_w s)) as Hn.
  destruct (dict_keys E (lget L s) (p_w s)) as [ks w]. cbn [fst] in *.
  destruct (frun_total f ks (lget L s) 0 w Hn) as (m' & w' & l & n' & ->); [|eauto].
  intros k v wa _. apply H.
Qed.
Lemma wlens_fail s s' l e : wlens s = (s', l, Exn e) ->
  exists k v wa v' wb, lget L s !! k = Some v /\ f k v wa = (v', Exn e, wb).
Proof.
  unfold wlens. pose proof (keys_nodup (lget L s) (p_w s)) as Hn.
  destruct (dict_keys E (lget L s) (p_w s)) as [ks w]. cbn [fst] in *.
  destruct (frun f ks (lget L s) 0 w) as [[[m2 w2] l2] r2] eqn:Er. intros [= <- <- ->].
  destruct (frun_fail f ks _ _ _ _ _ _ _ Hn Er) as (k & v & wa & v' & wb & _ & H1 & H2). eauto 8.
Qed.
End lensrun.

(** when a visit does not depend on the world, everything is a function of the entries *)
Section pure.
Context `{NN : Num} {TM CM GM V : Type} (E : env) (L : lens TM CM GM V).
Notation st := (pst TM CM GM).
Context (g : str -> V -> V * res (option (list dp))).
Definition pure (k : str) (v : V) (w : world) : V * res (option (list dp)) * world :=
  (fst (g k v), snd (g k v), w).
Definition out_of (kv : str * V) : list dp :=
  match snd (g (fst kv) (snd kv)) with Ok (Some ms) => ms | _ => [] end.
Definition group_of (kv : str * V) : bool :=
  match snd (g (fst kv) (snd kv)) with Ok (Some _) => true | _ => false end.

Lemma pure_ok s s' l n : wlens E L pure s = (s', l, Ok n) ->
  exists w' kvs, kvs ≡ₚ map_to_list (lget L s) /\
    s' = set_w w' (lput L (map_imap (fun k v => Some (fst (g k v))) (lget L s)) s) /\
    l = flat_map out_of kvs /\ n = Z.of_nat (length (List.filter group_of kvs)) /\
    Forall (fun kv => exists o, snd (g (fst kv) (snd kv)) = Ok o) kvs.
Proof.
  intros H. destruct (wlens_ok E L pure s s' l n H) as (ks & outs & m' & w' & Hp & Hn & -> & Hd & H2 & -> & ->).
  set (m := lget L s) in *.
  exists w'.
  assert (Hm : m' = map_imap (fun k v => Some (fst (g k v))) m).
  { apply map_eq. intros k. rewrite map_lookup_imap. destruct (m !! k) as [v|] eqn:Ev; cbn.
    - assert (Hk : k ∈ ks).
      { rewrite Hp. apply elem_of_list_fmap. exists (k, v). split; [reflexivity|]. apply elem_of_map_to_list. exact Ev. }
      clear -H2 Hk Ev. induction H2 as [|k0 o ks outs (v0 & v' & wa & wb & A & Bq & D) _ IH]; [inversion Hk|].
      apply elem_of_cons in Hk. destruct Hk as [->|Hk]; [|auto]. rewrite Ev in A. injection A as <-.
      unfold pure in Bq. injection Bq as <- _ _. exact D.
    - apply not_elem_of_dom. rewrite Hd. apply not_elem_of_dom. exact Ev. }
  assert (Hf : Forall2 (fun k o => exists v, m !! k = Some v /\ snd (g k v) = Ok o) ks outs).
  { eapply Forall2_impl; [exact H2|]. intros k o (v & v' & wa & wb & A & Bq & D). exists v. split; [exact A|].
    unfold pure in Bq. injection Bq as _ Hb _. exact Hb. }
  set (kvs := omap (fun k => (fun v => (k, v)) <$> (m !! k)) ks).
  exists kvs.
  assert (Hk : kvs ≡ₚ map_to_list m).
  { assert (Hmap : forall l : list (str * V), Forall (fun kv => m !! kv.1 = Some kv.2) l ->
      omap (fun k => (fun v => (k, v)) <$> (m !! k)) l.*1 = l).
    { induction 1 as [|[k v] l Ha _ IH]; [reflexivity|]. cbn in *. rewrite Ha. cbn. f_equal. exact IH. }
    unfold kvs. rewrite Hp. rewrite Hmap; [reflexivity|]. apply Forall_forall. intros [k v] Hx.
    apply elem_of_map_to_list in Hx. exact Hx. }
  split; [exact Hk|]. split; [rewrite Hm; reflexivity|].
  clear -Hf. unfold kvs. clear kvs. induction Hf as [|k o ks outs (v & A & Bq) _ IH].
  - repeat split. constructor.
  - cbn [omap list_omap]. rewrite A. cbn [fmap option_fmap option_map flat_map List.filter List.length].
    destruct IH as (I1 & I2 & I3). unfold emitted, groups in *. cbn [map concat List.filter List.length].
    unfold out_of at 1, group_of at 1. cbn [fst snd]. rewrite Bq.
    split; [|split].
    + rewrite I1. destruct o; reflexivity.
    + destruct o; cbn [List.filter List.length]; [|exact I2]. rewrite !Nat2Z.inj_succ, I2. reflexivity.
    + constructor; [|exact I3]. eauto.
Qed.

Lemma pure_fail s s' l e : wlens E L pure s = (s', l, Exn e) ->
  exists k v, lget L s !! k = Some v /\ snd (g k v) = Exn e.
Proof.
  intros H. destruct (wlens_fail E L pure s s' l e H) as (k & v & wa & v' & wb & H1 & H2).
  unfold pure in H2. injection H2 as _ H2 _. eauto.
Qed.
End pure.
