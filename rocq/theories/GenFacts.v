(** Reasoning about generators: runs to completion, and invariants with a
    conserved quantity over arbitrary interleavings. *)
From Verif Require Import Base Num Env Metrics Gen.

Section run.
Context `{NN : Num} {S X : Type}.
Context (unchanged : S -> bool)
        (visit : X -> S -> S * res (option (list dp * (S -> S * res unit)))).

(** the loop run without interruption *)
Fixpoint vrun (xs : list X) (n : Z) (s : S) : S * list dp * res Z :=
  match xs with
  | [] => (s, [], Ok n)
  | x :: xs' =>
      match visit x s with
      | (s', Exn e) => (s', [], Exn e)
      | (s', Ok None) => vrun xs' n s'
      | (s', Ok (Some (ms, post))) =>
          match post s' with
          | (s3, Exn e) => (s3, ms, Exn e)
          | (s3, Ok _) => let '(s4, l, r) := vrun xs' (n + 1) s3 in (s4, ms ++ l, r)
          end
      end
  end.

Definition resume (k : Z -> gen S) (t : S * list dp * res Z) : S * list dp * option exn :=
  match t with
  | (s, l, Ok n) => let '(s', l', o) := grun (k n) s in (s', l ++ l', o)
  | (s, l, Exn e) => (s, l, Some e)
  end.

Lemma grun_giter (P : S -> Prop) (k : Z -> gen S) :
  (forall s, P s -> unchanged s = true) ->
  (forall x s, P s -> match visit x s with
                      | (s', Ok (Some (ms, post))) => P s' /\ P (fst (post s'))
                      | (s', Ok None) => P s'
                      | (_, Exn _) => True
                      end) ->
  forall xs n s, P s -> grun (giter xs unchanged visit n k) s = resume k (vrun xs n s).
Proof.
  intros HP Hv. induction xs as [|x xs IH]; intros n s Hs; cbn [giter grun].
  - rewrite (HP s Hs). cbn [vrun resume]. destruct (grun (k n) s) as [[s' l'] o]. reflexivity.
  - rewrite (HP s Hs). cbn [negb vrun]. specialize (Hv x s Hs).
    destruct (visit x s) as [s' [[[ms post]|]|e]]; [| |reflexivity].
    + destruct Hv as [H1 H2]. cbn [grun]. destruct (post s') as [s3 [[]|e]]; cbn [fst] in H2.
      * rewrite (IH (n + 1) s3 H2).
        destruct (vrun xs (n + 1) s3) as [[s4 l] [n'|e']]; cbn [resume].
        -- destruct (grun (k n') s4) as [[s5 l5] o5]. rewrite app_assoc. reflexivity.
        -- reflexivity.
      * cbn [grun resume]. rewrite app_nil_r. reflexivity.
    + apply IH. exact Hv.
Qed.
End run.

Section potential.
Context `{NN : Num} {S : Type}.
(** a commutative monoid *)
Context {A : Type} (op : A -> A -> A) (e0 : A).
Context (op_comm : forall a b, op a b = op b a)
        (op_assoc : forall a b c, op a (op b c) = op (op a b) c)
        (op_e0 : forall a, op e0 a = a).
(** invariant of the state, property of emitted items, stored and emitted amounts *)
Context (Inv : S -> Prop) (Q : dp -> Prop) (pot : S -> A) (val : dp -> A).

Definition total (ms : list dp) : A := fold_right (fun d a => op (val d) a) e0 ms.

(** what a suspended generator still has to emit of what it has taken *)
Fixpoint owed (g : gen S) : A :=
  match g with
  | GEmit ms k => op (total ms) (owed k)
  | _ => e0
  end.

Fixpoint okG (g : gen S) : Prop :=
  match g with
  | GRet | GRaise _ => True
  | GAct f => forall s, Inv s ->
      match f s with
      | (s', g') => Inv s' /\ pot s = op (pot s') (owed g') /\ okG g'
      end
  | GEmit ms k => Forall Q ms /\ okG k
  end.

Definition out_owed (o : step_out S) : A :=
  match o with Yielded d g => op (val d) (owed g) | _ => e0 end.
Definition out_ok (o : step_out S) : Prop :=
  match o with Yielded d g => Q d /\ okG g | _ => True end.

Lemma gnext_ok g : forall s s' o, Inv s -> okG g -> gnext g s = (s', o) ->
  Inv s' /\ op (pot s) (owed g) = op (pot s') (out_owed o) /\ out_ok o.
Proof using op_comm op_assoc op_e0.
  induction g as [|e|f IH|ms k IH] using gen_ind'; intros s s' o Hs Hg H; cbn [gnext] in H.
  - injection H as <- <-. auto.
  - injection H as <- <-. auto.
  - cbn [okG] in Hg. specialize (Hg s Hs). specialize (IH s).
    destruct (f s) as [s1 g1]. cbn [snd] in IH. destruct Hg as (H1 & H2 & H3).
    destruct (IH s1 s' o H1 H3 H) as (H4 & H5 & H6). split; [auto|split; [|auto]].
    cbn [owed]. rewrite H2. rewrite op_comm, op_e0. exact H5.
  - cbn [okG] in Hg. destruct Hg as [HQ Hk]. destruct ms as [|d ms].
    + destruct (IH s s' o Hs Hk H) as (H4 & H5 & H6). split; [auto|split; [|auto]].
      cbn [owed total fold_right]. rewrite op_e0. exact H5.
    + injection H as <- <-. inversion HQ; subst. split; [auto|]. split; [|split; [auto|split; auto]].
      cbn [owed total fold_right out_owed]. rewrite <- op_assoc. reflexivity.
Qed.

(** a step takes from what is stored and puts nothing back *)
Lemma gnext_takes g : forall s s' o, Inv s -> okG g -> gnext g s = (s', o) -> exists z, pot s = op (pot s') z.
Proof using op_comm op_assoc op_e0.
  induction g as [|e|f IH|ms k IH] using gen_ind'; intros s s' o Hs Hg H; cbn [gnext] in H.
  - injection H as <- <-. exists e0. rewrite op_comm, op_e0. reflexivity.
  - injection H as <- <-. exists e0. rewrite op_comm, op_e0. reflexivity.
  - cbn [okG] in Hg. specialize (Hg s Hs). specialize (IH s).
    destruct (f s) as [s1 g1]. cbn [snd] in IH. destruct Hg as (H1 & H2 & H3).
    destruct (IH s1 s' o H1 H3 H) as [z Hz]. exists (op z (owed g1)). rewrite H2, Hz. rewrite op_assoc. reflexivity.
  - cbn [okG] in Hg. destruct Hg as [HQ Hk]. destruct ms as [|d ms].
    + exact (IH s s' o Hs Hk H).
    + injection H as <- <-. exists e0. rewrite op_comm, op_e0. reflexivity.
Qed.

Lemma grun_ok g : forall s s' l o, Inv s -> okG g -> grun g s = (s', l, o) ->
  Inv s' /\ op (pot s) (owed g) = op (pot s') (total l) /\ Forall Q l.
Proof using op_comm op_assoc op_e0.
  induction g as [|e|f IH|ms k IH] using gen_ind'; intros s s' l o Hs Hg H; cbn [grun] in H.
  - injection H as <- <- <-. repeat split; auto.
  - injection H as <- <- <-. repeat split; auto.
  - cbn [okG] in Hg. specialize (Hg s Hs). specialize (IH s).
    destruct (f s) as [s1 g1]. cbn [snd] in IH. destruct Hg as (H1 & H2 & H3).
    destruct (IH s1 s' l o H1 H3 H) as (H4 & H5 & H6). split; [auto|split; [|auto]].
    cbn [owed]. rewrite H2. rewrite op_comm, op_e0. exact H5.
  - cbn [okG] in Hg. destruct Hg as [HQ Hk].
    destruct (grun k s) as [[s1 l1] o1] eqn:E. injection H as <- <- <-.
    destruct (IH s s1 l1 o1 Hs Hk E) as (H4 & H5 & H6). split; [auto|]. split.
    + cbn [owed].
      assert (Ht : total (ms ++ l1) = op (total ms) (total l1)).
      { clear -op_assoc op_e0. induction ms as [|d ms IH]; cbn [total fold_right app].
        - symmetry. apply op_e0.
        - change (fold_right (fun d a => op (val d) a) e0 (ms ++ l1)) with (total (ms ++ l1)).
          rewrite IH. apply op_assoc. }
      rewrite Ht. rewrite (op_comm (total ms)), op_assoc, H5.
      rewrite <- op_assoc. f_equal. apply op_comm.
    + apply Forall_app; auto.
Qed.

(** a loop is ok if each visit is, and what follows is *)
Lemma okG_giter {X} (xs : list X) unchanged visit k :
  (forall x s, Inv s ->
     match visit x s with
     | (s', Exn _) => Inv s' /\ pot s = pot s'
     | (s', Ok None) => Inv s' /\ pot s = pot s'
     | (s', Ok (Some (ms, post))) =>
         Inv s' /\ pot s = op (pot s') (total ms) /\ Forall Q ms /\
         (forall s2, Inv s2 -> Inv (fst (post s2)) /\ pot (fst (post s2)) = pot s2)
     end) ->
  (forall n, owed (k n) = e0 /\ okG (k n)) ->
  forall n, okG (giter xs unchanged visit n k) /\ owed (giter xs unchanged visit n k) = e0.
Proof using op_comm op_assoc op_e0.
  intros Hv Hk. assert (op_e0r : forall a, op a e0 = a) by (intros; rewrite op_comm; apply op_e0).
  induction xs as [|x xs IH]; intros n; (split; [|reflexivity]).
  - cbn [giter okG]. intros s Hs. destruct (unchanged s).
    + destruct (Hk n) as [-> ?]. rewrite op_e0r. auto.
    + cbn [owed okG]. rewrite op_e0r. auto.
  - cbn [giter okG]. intros s Hs. destruct (negb (unchanged s)).
    + cbn [owed okG]. rewrite op_e0r. auto.
    + specialize (Hv x s Hs) as Hx. destruct (visit x s) as [s' [[[ms post]|]|e]].
      * destruct Hx as (H1 & H2 & H3 & H4). split; [auto|]. cbn [owed okG]. rewrite op_e0r.
        split; [auto|]. split; [auto|]. intros s2 Hs2. specialize (H4 s2 Hs2).
        destruct (post s2) as [s3 [[]|e]]; cbn [fst] in H4; destruct H4 as [H5 H6]; (split; [auto|]).
        -- destruct (IH (n + 1)) as [I1 I2]. rewrite I2, op_e0r. auto.
        -- cbn [owed okG]. rewrite op_e0r. auto.
      * destruct Hx as [H1 H2]. split; [auto|]. destruct (IH n) as [I1 I2]. rewrite I2, op_e0r. auto.
      * destruct Hx as [H1 H2]. cbn [owed okG]. rewrite op_e0r. auto.
Qed.
End potential.

(** stepping without interruption is running to completion *)
Inductive steps_to_end `{NN : Num} {S} : gen S -> S -> S -> list dp -> option exn -> Prop :=
| ste_ret g s s' : gnext g s = (s', Finished) -> steps_to_end g s s' [] None
| ste_raise g s s' e : gnext g s = (s', Raised e) -> steps_to_end g s s' [] (Some e)
| ste_yield g g' s s1 s' d l o : gnext g s = (s1, Yielded d g') -> steps_to_end g' s1 s' l o ->
    steps_to_end g s s' (d :: l) o.

Lemma grun_steps `{NN : Num} {S} (g : gen S) : forall s s' l o,
  grun g s = (s', l, o) -> steps_to_end g s s' l o.
Proof.
  induction g as [|e|f IH|ms k IH] using gen_ind'; intros s s' l o H; cbn [grun] in H.
  - injection H as <- <- <-. apply ste_ret. reflexivity.
  - injection H as <- <- <-. apply ste_raise. reflexivity.
  - destruct (f s) as [s1 g1] eqn:E. specialize (IH s). rewrite E in IH. cbn [snd] in IH.
    apply IH in H. assert (Hg : gnext (GAct f) s = gnext g1 s1) by (cbn [gnext]; rewrite E; reflexivity).
    inversion H; subst; econstructor; try (rewrite Hg; eassumption); eassumption.
  - destruct (grun k s) as [[s1 l1] o1] eqn:E. injection H as <- <- <-. apply IH in E.
    induction ms as [|d ms IHms].
    + inversion E; subst; econstructor; cbn [gnext]; eassumption.
    + cbn [app]. econstructor; [reflexivity|exact IHms].
Qed.
