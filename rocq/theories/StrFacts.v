(** Facts about the string functions of Base.v. *)
From Verif Require Import Base.

Lemma eqc_eq a b : eqc a b = true <-> a = b.
Proof. unfold eqc. apply Ascii.eqb_eq. Qed.
Lemma eqc_neq a b : eqc a b = false <-> a <> b.
Proof. unfold eqc. apply Ascii.eqb_neq. Qed.
Lemma eqc_refl a : eqc a a = true.
Proof. apply eqc_eq; reflexivity. Qed.

Lemma str_eqb_eq a b : str_eqb a b = true <-> a = b.
Proof.
  revert b; induction a as [|x a IH]; intros [|y b]; simpl; split; intros H; try easy.
  - apply andb_true_iff in H as [H1 H2]. apply eqc_eq in H1. apply IH in H2. congruence.
  - injection H as -> ->. rewrite eqc_refl. simpl. apply IH. reflexivity.
Qed.
Lemma str_eqb_refl a : str_eqb a a = true.
Proof. apply str_eqb_eq; reflexivity. Qed.
Lemma str_eqb_neq a b : str_eqb a b = false <-> a <> b.
Proof.
  destruct (str_eqb a b) eqn:Heq; split; intros H; try easy.
  - apply str_eqb_eq in Heq. congruence.
  - intros ->. rewrite str_eqb_refl in Heq. discriminate.
Qed.

Lemma has_In c s : has c s = true <-> In c s.
Proof.
  unfold has. rewrite existsb_exists. split.
  - intros (x & Hx & He). apply eqc_eq in He. congruence.
  - intros H. exists c. rewrite eqc_refl. auto.
Qed.
Lemma has_not_In c s : has c s = false <-> ~ In c s.
Proof. rewrite <- has_In. destruct (has c s); split; congruence. Qed.
Lemma has_app c s t : has c (s ++ t) = has c s || has c t.
Proof. unfold has. apply existsb_app. Qed.

(** ** split1 *)
Lemma split1_Some c s a b : split1 c s = Some (a, b) -> s = a ++ c :: b /\ ~ In c a.
Proof.
  revert a b; induction s as [|x s IH]; intros a b H; simpl in H; [discriminate|].
  destruct (eqc c x) eqn:E.
  - apply eqc_eq in E; subst x. injection H as <- <-. auto.
  - apply eqc_neq in E.
    destruct (split1 c s) as [[a' b']|] eqn:E1; [|discriminate].
    injection H as <- <-. destruct (IH a' b' eq_refl) as [-> Hn].
    split; [reflexivity|]. simpl. intros [->|Hi]; [congruence|auto].
Qed.
Lemma split1_app c a b : ~ In c a -> split1 c (a ++ c :: b) = Some (a, b).
Proof.
  induction a as [|x a IH]; simpl; intros Hn.
  - rewrite eqc_refl. reflexivity.
  - destruct (eqc c x) eqn:E; [apply eqc_eq in E; subst; exfalso; auto|].
    rewrite IH by auto. reflexivity.
Qed.
Lemma split1_None c s : split1 c s = None <-> ~ In c s.
Proof.
  induction s as [|x s IH]; simpl; [easy|].
  destruct (eqc c x) eqn:E.
  - apply eqc_eq in E; subst. split; [easy|]. intros H; exfalso; auto.
  - apply eqc_neq in E. destruct (split1 c s) as [[a b]|].
    + split; [easy|]. intros H. exfalso. assert (Hs : ~ In c s) by auto. apply IH in Hs. easy.
    + split; auto. intros _ [->|Hi]; [congruence|]. revert Hi. apply IH. reflexivity.
Qed.

(** ** split_on and join *)
Lemma split_on_nonempty c s : split_on c s <> [].
Proof.
  destruct s as [|x s]; simpl; [easy|].
  destruct (eqc c x); [easy|]. destruct (split_on c s); easy.
Qed.
Lemma split_on_no_sep c s : Forall (fun w => ~ In c w) (split_on c s).
Proof.
  induction s as [|x s IH]; simpl; [constructor; auto|].
  destruct (eqc c x) eqn:E; [constructor; auto|]. apply eqc_neq in E.
  destruct (split_on c s) as [|w ws].
  - repeat constructor. simpl. intros [->|[]]; congruence.
  - inversion IH as [|? ? Hw Hws]; subst. constructor; auto.
    simpl. intros [->|Hi]; [congruence|auto].
Qed.
Lemma join_cons sep w l : l <> [] -> join sep (w :: l) = w ++ sep ++ join sep l.
Proof. destruct l; [easy|reflexivity]. Qed.
Lemma join_cons_char sep x w l : join sep ((x :: w) :: l) = x :: join sep (w :: l).
Proof. destruct l; reflexivity. Qed.
Lemma join_split_on c s : join [c] (split_on c s) = s.
Proof.
  induction s as [|x s IH]; simpl; [reflexivity|].
  destruct (eqc c x) eqn:E.
  - apply eqc_eq in E; subst x. rewrite join_cons by apply split_on_nonempty.
    rewrite IH. reflexivity.
  - destruct (split_on c s) as [|w ws] eqn:E1; [exfalso; eapply split_on_nonempty; eauto|].
    rewrite join_cons_char, IH. reflexivity.
Qed.
Lemma split_on_word c w : ~ In c w -> split_on c w = [w].
Proof.
  induction w as [|x w IH]; simpl; intros H; [reflexivity|].
  destruct (eqc c x) eqn:E; [apply eqc_eq in E; subst; exfalso; auto|].
  rewrite IH by auto. reflexivity.
Qed.
Lemma split_on_app c w s : ~ In c w -> split_on c (w ++ c :: s) = w :: split_on c s.
Proof.
  induction w as [|x w IH]; simpl; intros H.
  - rewrite eqc_refl. reflexivity.
  - destruct (eqc c x) eqn:E; [apply eqc_eq in E; subst; exfalso; auto|].
    rewrite IH by auto. reflexivity.
Qed.
Lemma split_on_join c l :
  l <> [] -> Forall (fun w => ~ In c w) l -> split_on c (join [c] l) = l.
Proof.
  induction l as [|w l IH]; [easy|]. intros _ H. inversion H; subst.
  destruct l as [|w' l].
  - cbn [join]. apply split_on_word; auto.
  - rewrite join_cons by easy. simpl app. rewrite split_on_app by auto. f_equal. apply IH; easy.
Qed.

(** ** strip *)
Definition all_space (s : str) : Prop := Forall (fun c => is_space c = true) s.

Lemma lstrip_app l s : all_space l -> lstrip (l ++ s) = lstrip s.
Proof. induction 1 as [|c l Hc Hl IH]; simpl; [reflexivity|]. rewrite Hc. exact IH. Qed.
Lemma lstrip_head s : (match s with [] => True | c :: _ => is_space c = false end) -> lstrip s = s.
Proof. destruct s as [|c s]; simpl; [easy|]. intros ->. reflexivity. Qed.
Lemma lstrip_spec s : exists l, s = l ++ lstrip s /\ all_space l /\
  (match lstrip s with [] => True | c :: _ => is_space c = false end).
Proof.
  induction s as [|c s IH]; simpl.
  - exists []; repeat split; constructor.
  - destruct (is_space c) eqn:E.
    + destruct IH as (l & Hs & Hl & Hh). exists (c :: l). repeat split.
      * simpl. f_equal. exact Hs.
      * constructor; auto.
      * exact Hh.
    + exists []. repeat split; [constructor|exact E].
Qed.

Lemma all_space_rev s : all_space s -> all_space (rev s).
Proof. unfold all_space. intros H. apply Forall_forall. intros x Hx.
  rewrite Forall_forall in H. apply H.
  apply elem_of_list_In. apply in_rev. apply elem_of_list_In. exact Hx. Qed.

Lemma strip_spec s : exists l r, s = l ++ strip s ++ r /\ all_space l /\ all_space r /\
  (match strip s with [] => True | c :: _ => is_space c = false end) /\
  (match last (strip s) with None => True | Some c => is_space c = false end).
Proof.
  unfold strip, rstrip.
  destruct (lstrip_spec s) as (l & Hs & Hl & Hh).
  destruct (lstrip_spec (rev (lstrip s))) as (r & Hr & Hrs & Hrh).
  set (t := lstrip s) in *. set (u := lstrip (rev t)) in *.
  assert (Ht : t = rev u ++ rev r).
  { rewrite <- (rev_involutive t). rewrite Hr. rewrite rev_app_distr. reflexivity. }
  exists l, (rev r). repeat split.
  - rewrite Hs, Ht. reflexivity.
  - exact Hl.
  - apply all_space_rev; exact Hrs.
  - destruct (rev u) as [|c v] eqn:E; [exact I|]. rewrite Ht in Hh. simpl in Hh. exact Hh.
  - destruct u as [|c v]; simpl; [exact I|]. rewrite last_snoc. exact Hrh.
Qed.

(** characterisation: the stripped string is determined by these conditions *)
Definition trimmed_str (s : str) : Prop :=
  (match s with [] => True | c :: _ => is_space c = false end) /\
  (match last s with None => True | Some c => is_space c = false end).

Lemma rstrip_app s r : all_space r -> rstrip (s ++ r) = rstrip s.
Proof.
  intros H. unfold rstrip. rewrite rev_app_distr. rewrite lstrip_app; [reflexivity|].
  apply all_space_rev; exact H.
Qed.
Lemma rstrip_last s : (match last s with None => True | Some c => is_space c = false end) -> rstrip s = s.
Proof.
  intros H. unfold rstrip. rewrite lstrip_head.
  - apply rev_involutive.
  - destruct s as [|c s] using rev_ind; [exact I|]. rewrite rev_app_distr. simpl.
    rewrite last_snoc in H. exact H.
Qed.
Lemma lstrip_all_space l : all_space l -> lstrip l = [].
Proof. intros H. rewrite <- (app_nil_r l), lstrip_app by auto. reflexivity. Qed.
Lemma strip_unique l b r : all_space l -> all_space r -> trimmed_str b -> strip (l ++ b ++ r) = b.
Proof.
  intros Hl Hr [Hh Ht]. unfold strip. rewrite lstrip_app by auto.
  destruct b as [|c b].
  - simpl. rewrite lstrip_all_space by auto. reflexivity.
  - rewrite lstrip_head by exact Hh. rewrite rstrip_app by auto. apply rstrip_last. exact Ht.
Qed.
Lemma strip_trimmed s : trimmed_str (strip s).
Proof. destruct (strip_spec s) as (l & r & _ & _ & _ & H1 & H2). split; auto. Qed.
Lemma strip_idemp s : strip (strip s) = strip s.
Proof. pose proof (strip_unique [] (strip s) []) as H. rewrite app_nil_r in H. simpl in H.
  apply H; [constructor|constructor|apply strip_trimmed]. Qed.

Lemma strip_has c s : is_space c = false -> has c (strip s) = has c s.
Proof.
  intros Hc. destruct (strip_spec s) as (l & r & Hs & Hl & Hr & _).
  rewrite Hs at 2. rewrite !has_app.
  assert (H : forall t, all_space t -> has c t = false).
  { intros t Ht. apply has_not_In. intros Hi. unfold all_space in Ht. rewrite Forall_forall in Ht.
    rewrite Ht in Hc; [discriminate|]. apply elem_of_list_In; exact Hi. }
  rewrite (H l), (H r) by auto. rewrite orb_false_r. reflexivity.
Qed.

(** ** span *)
Lemma span_spec p s : s = fst (span p s) ++ snd (span p s) /\
  forallb p (fst (span p s)) = true /\
  (match snd (span p s) with [] => True | c :: _ => p c = false end).
Proof.
  induction s as [|c s IH]; simpl; [easy|].
  destruct (p c) eqn:E.
  - destruct (span p s) as [a b]; simpl in *. destruct IH as (H1 & H2 & H3).
    rewrite E, H2. repeat split; auto. f_equal; exact H1.
  - simpl. auto.
Qed.
Lemma span_app p a b : forallb p a = true ->
  (match b with [] => True | c :: _ => p c = false end) -> span p (a ++ b) = (a, b).
Proof.
  induction a as [|c a IH]; simpl; intros Ha Hb.
  - destruct b as [|c b]; simpl; [reflexivity|]. rewrite Hb. reflexivity.
  - apply andb_true_iff in Ha as [Hc Ha]. rewrite Hc, IH by auto. reflexivity.
Qed.

Lemma starts_with_app p s : starts_with p (p ++ s) = true.
Proof. induction p; simpl; auto. rewrite eqc_refl. auto. Qed.
Lemma starts_with_iff p s : starts_with p s = true <-> exists t, s = p ++ t.
Proof.
  split.
  - revert s; induction p as [|x p IH]; intros s H; simpl in *; [eauto|].
    destruct s as [|y s]; [discriminate|]. apply andb_true_iff in H as [H1 H2].
    apply eqc_eq in H1; subst. destruct (IH _ H2) as [t ->]. eauto.
  - intros [t ->]. apply starts_with_app.
Qed.
