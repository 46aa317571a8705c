(** Histories of received lines: exact arithmetic, order independence, receive
    statistics. *)
From Verif Require Import Base StrFacts Num NumFacts Env Stats Glob Metrics Gen Processor
  LineSpec LineFacts FloatFacts ProcFacts ProcSpec ReceiveFacts ReceiveFacts2.

Section exact.
Context `{NN : Num} {NL : NumLaw NN} {NX : NumExact NN} (E : env) (plugins : list factory).
Notation C := (mp_cls E plugins).
Notation receive_all := (receive_all E plugins).

Lemma nadd_0_r (a : num) : nadd a n0 = a.
Proof. rewrite nadd_comm. apply nadd_0_l. Qed.
Lemma fold_nadd l (a b : num) : fold_left nadd l (nadd a b) = nadd a (fold_left nadd l b).
Proof.
  revert b. induction l as [|x l IH]; intros b; cbn [fold_left]; [reflexivity|].
  rewrite <- nadd_assoc. apply IH.
Qed.
Lemma fold_nadd_0 l (a : num) : fold_left nadd l a = nadd a (nsum l).
Proof. rewrite <- (nadd_0_r a) at 1. apply fold_nadd. Qed.
Lemma fold_nadd_perm l l' (a : num) : l ≡ₚ l' -> fold_left nadd l a = fold_left nadd l' a.
Proof.
  intros H. revert a. induction H; intros a; cbn [fold_left]; auto.
  - f_equal. rewrite <- !nadd_assoc. f_equal. apply nadd_comm.
  - rewrite IHPermutation1. apply IHPermutation2.
Qed.
Lemma nsum_app l k : nsum (l ++ k) = nadd (nsum l) (nsum k).
Proof. unfold nsum. rewrite fold_left_app. apply fold_nadd_0. Qed.
Lemma nsum_cons x l : nsum (x :: l) = nadd x (nsum l).
Proof. unfold nsum. cbn [fold_left]. rewrite nadd_0_l. apply fold_nadd_0. Qed.

(** what a counter line contributes in exact arithmetic: value divided by rate *)
Definition contribution (key m : str) (x : num) : Prop :=
  exists v r, counter_sample m key v r /\ x = ndiv v r.

Lemma contribution_amount key m x : contribution key m x <-> counter_amount key m x.
Proof using NL NX.
  split; intros (v & r & H & ->); exists v, r; (split; [exact H|]).
  - symmetry. apply nmul_inv. inversion H; subst; [apply one_not_zero|assumption].
  - apply nmul_inv. inversion H; subst; [apply one_not_zero|assumption].
Qed.
Lemma contribution_fun key m x y : contribution key m x -> contribution key m y -> x = y.
Proof using NL NX. rewrite !contribution_amount. apply counter_amount_fun. Qed.
Lemma picks_iff {A} (P Q : str -> A -> Prop) (HPQ : forall m a, P m a <-> Q m a) ms l :
  picks P ms l -> picks Q ms l.
Proof.
  induction 1; [constructor|apply picks_hit; [apply HPQ; auto|auto]|apply picks_miss; [|auto]].
  intros a Ha. apply (H a). apply HPQ. exact Ha.
Qed.

Lemma counter_exact ms (s : mst) key :
  exists l, picks (contribution key) ms l /\
    ((p_counter s !! key = None /\ (forall m, In m ms -> ~ counter_touch m key) /\
      p_counter (receive_all ms s) !! key = None) \/
     ((is_Some (p_counter s !! key) \/ exists m, In m ms /\ counter_touch m key) /\
      p_counter (receive_all ms s) !! key = Some (nadd (default n0 (p_counter s !! key)) (nsum l)))).
Proof using NL NX.
  destruct (counter_history E plugins ms s key) as (l & Hl & H). exists l. split.
  { eapply picks_iff; [|exact Hl]. intros. symmetry. apply contribution_amount. }
  destruct H as [(H1 & H2 & _ & H3)|(H1 & H2)]; [left; auto|right]. split; [exact H1|].
  rewrite H2. f_equal. apply fold_nadd_0.
Qed.

(** ** order independence *)
Lemma counter_perm ms ms' (s : mst) : ms ≡ₚ ms' ->
  p_counter (receive_all ms s) = p_counter (receive_all ms' s).
Proof using NL NX.
  intros HP. apply map_eq. intros key.
  destruct (counter_exact ms s key) as (l & Hl & H).
  destruct (counter_exact ms' s key) as (l' & Hl' & H').
  pose proof (picks_perm (contribution key) (contribution_fun key) ms ms' HP l l' Hl Hl') as Hll.
  assert (Hin : forall m, In m ms <-> In m ms').
  { intros m. rewrite <- !elem_of_list_In. rewrite HP. reflexivity. }
  destruct H as [(H1 & H2 & H3)|(H1 & H3)], H' as [(H1' & H2' & H3')|(H1' & H3')].
  - congruence.
  - exfalso. destruct H1' as [[x Hx]|(m & Hm & Ht)]; [congruence|]. apply (H2 m); [apply Hin; auto|auto].
  - exfalso. destruct H1 as [[x Hx]|(m & Hm & Ht)]; [congruence|]. apply (H2' m); [apply Hin; auto|auto].
  - rewrite H3, H3'. do 2 f_equal. apply fold_nadd_perm. exact Hll.
Qed.

Definition meter_total (s : mst) (key : str) : option num := me_value <$> (p_meter s !! key).
Lemma meter_sample_fun key m v v' : meter_sample m key v -> meter_sample m key v' -> v = v'.
Proof.
  unfold meter_sample. intros (f0 & fs & H1 & H2) (f0' & fs' & H1' & H2').
  destruct (typed_line_fun _ _ _ _ _ _ _ H1 H1') as (_ & _ & Heq).
  injection Heq as <- <-. apply reads_iff in H2, H2'. congruence.
Qed.
Lemma meter_exact ms (s : mst) key :
  exists l, picks (fun m => meter_sample m key) ms l /\
    meter_total (receive_all ms s) key =
      match meter_total s key, l with
      | None, [] => None
      | o, _ => Some (nadd (default n0 o) (nsum l))
      end.
Proof using NL NX.
  destruct (meter_history E plugins ms s key) as (l & Hl & H). exists l. split; [exact Hl|].
  unfold meter_total. destruct (p_meter s !! key) as [m0|]; cbn [fmap option_fmap option_map].
  - destruct H as (me & -> & H). cbn [fmap option_fmap option_map]. rewrite H. f_equal. apply fold_nadd_0.
  - destruct l as [|x l].
    + rewrite H. reflexivity.
    + destruct H as (me & -> & H). cbn [fmap option_fmap option_map]. rewrite H. f_equal.
      apply (fold_nadd_0 (x :: l)).
Qed.
Lemma meter_perm ms ms' (s : mst) key : ms ≡ₚ ms' ->
  meter_total (receive_all ms s) key = meter_total (receive_all ms' s) key.
Proof using NL NX.
  intros HP. destruct (meter_exact ms s key) as (l & Hl & H).
  destruct (meter_exact ms' s key) as (l' & Hl' & H').
  pose proof (picks_perm _ (meter_sample_fun key) ms ms' HP l l' Hl Hl') as Hll.
  rewrite H, H'. destruct (meter_total s key).
  - f_equal. f_equal. apply fold_nadd_perm. exact Hll.
  - destruct l as [|x l]; [apply Permutation_nil in Hll; subst; reflexivity|].
    destruct l' as [|x' l']; [apply Permutation_sym, Permutation_nil in Hll; discriminate|].
    f_equal. f_equal. apply fold_nadd_perm. exact Hll.
Qed.
End exact.

(** ** receive statistics over a history *)
Section stats.
Context `{NN : Num} {NL : NumLaw NN} (E : env) (plugins : list factory).

(** [counts_to P ms s n]: [n] of the lines [ms], each handled in the state left
    by the earlier ones, satisfy [P] *)
Inductive counts_to (P : str -> mst -> Prop) : list str -> mst -> Z -> Prop :=
| cto_nil s : counts_to P [] s 0
| cto_hit m ms s n : P m s -> counts_to P ms (receive E plugins m s) n -> counts_to P (m :: ms) s (n + 1)
| cto_miss m ms s n : ~ P m s -> counts_to P ms (receive E plugins m s) n -> counts_to P (m :: ms) s n.

Lemma counts_to_nonneg P ms s n : counts_to P ms s n -> 0 <= n.
Proof. induction 1; lia. Qed.

Lemma btype_history ms (s : mst) t :
  exists n, counts_to (counted E plugins t) ms s n /\
    p_btype (receive_all E plugins ms s) !! t =
      match p_btype s !! t with
      | None => if n =? 0 then None else Some n
      | Some k => Some (k + n)
      end.
Proof.
  revert s. induction ms as [|m ms IH]; intros s.
  - exists 0. split; [constructor|]. cbn. destruct (p_btype s !! t); [f_equal; lia|reflexivity].
  - rewrite receive_all_cons. destruct (IH (receive E plugins m s)) as (n & Hn & H).
    pose proof (counts_to_nonneg _ _ _ _ Hn).
    destruct (btype_one E plugins m s t) as [[Hc H1]|[Hc H1]].
    + exists (n + 1). split; [constructor; auto|]. rewrite H, H1.
      destruct (p_btype s !! t); cbn [default].
      * f_equal. cbn [from_option id]. lia.
      * destruct (n + 1 =? 0) eqn:En; [lia|]. f_equal. cbn [from_option id]. lia.
    + exists n. split; [apply cto_miss; auto|]. rewrite H, H1. reflexivity.
Qed.
End stats.
