(** A line that is too long ends its TCP connection. *)
From Verif Require Import Base StrFacts Client Router FrameFacts Server ServerSpec ServerFacts.

(** both lists stop at the first piece that is too long *)
Lemma same_stop max : forall xs p (l ys : list str) q m,
  xs ++ p :: l = ys ++ q :: m -> Forall (fun x => (length x <= max)%nat) xs -> (max <= length p)%nat ->
  Forall (fun y => (length y < max)%nat) ys -> (max < length q)%nat -> xs = ys.
Proof.
  induction xs as [|x xs IH]; intros p l [|y ys] q m H Hx Hp Hy Hq; cbn in H; [reflexivity| | |].
  - injection H as -> _. inversion Hy; subst. lia.
  - injection H as -> _. inversion Hx; subst. lia.
  - injection H as -> H. inversion Hx; inversion Hy; subst. f_equal. eapply IH; eassumption.
Qed.
Lemma first_long max (ps : list str) : Forall (fun p => (length p <= max)%nat) ps \/
  exists xs p l, ps = xs ++ p :: l /\ Forall (fun x => (length x <= max)%nat) xs /\ (max < length p)%nat.
Proof.
  induction ps as [|p ps IH]; [left; constructor|].
  destruct (Nat.le_gt_cases (length p) max) as [H|H]; [|right; exists [], p, ps; auto].
  destruct IH as [IH|(xs & q & l & -> & Hx & Hq)]; [left; constructor; assumption|].
  right. exists (p :: xs), q, l. auto.
Qed.

Section long.
Context {S : Type} (cfg : mon) (max : nat).
Lemma loop_long addr xs : forall p l (s : @server S), Forall (fun x => (length x <= max)%nat) xs -> (max < length p)%nat ->
  line_loop cfg max false addr (xs ++ p :: l) s = (take_lines cfg addr xs s, [], false).
Proof.
  induction xs as [|x xs IH]; intros p l s Hx Hp; cbn [app line_loop].
  - apply Nat.ltb_lt in Hp. rewrite Hp. destruct l; reflexivity.
  - inversion Hx as [|? ? Hl Hx']; subst. apply Nat.ltb_ge in Hl. rewrite Hl.
    destruct (xs ++ p :: l) eqn:E; [destruct xs; discriminate|]. rewrite <- E. cbn [andb].
    unfold take_lines. cbn [fold_left]. destruct (received cfg addr x s) as [s' why]. cbn [fst].
    rewrite E at 1. rewrite <- E. apply IH; assumption.
Qed.
Lemma shut_chunks cs addr buf closes (s : @server S) : feed_chunks cfg max closes cs (Conn addr buf false) s = (Conn addr buf false, s).
Proof. induction cs as [|c cs IH]; [reflexivity|]. cbn. exact IH. Qed.

Lemma chunks_long addr cs : forall w0 (s : @server S) good bad more,
  cut (w0 ++ concat cs) = good ++ bad :: more -> Forall (fun p => (length p <= max)%nat) (cut w0) ->
  Forall (fun x => (length x < max)%nat) good -> (max < length bad)%nat ->
  exists ls, good = done w0 ++ ls /\
    feed_chunks cfg max false cs (Conn addr (rest w0) true) s = (Conn addr [] false, take_lines cfg addr ls s).
Proof.
  induction cs as [|c cs IH]; intros w0 s good bad more Hc Hw Hg Hb; cbn [concat feed_chunks] in *.
  - exfalso. rewrite app_nil_r in Hc. rewrite Hc in Hw. apply Forall_app in Hw as [_ Hw]. inversion Hw; subst. lia.
  - unfold data_received. cbn [k_open k_buf k_addr].
    change (split_on2 c_cr c_nl (rest w0 ++ c)) with (cut (rest w0 ++ c)).
    assert (Hw0 : Forall (fun x => (length x <= max)%nat) (done w0)).
    { rewrite cut_done in Hw. apply Forall_app in Hw. apply Hw. }
    rewrite app_assoc in Hc.
    destruct (first_long max (cut (rest w0 ++ c))) as [Hs|(xs & p & l & E & Hx & Hp)].
    + rewrite (cut_done (rest w0 ++ c)) in Hs |- *. rewrite line_loop_ok by exact Hs.
      destruct (IH (w0 ++ c) (take_lines cfg addr (done (rest w0 ++ c)) s) good bad more Hc) as (ls & H1 & H2); [|assumption..|].
      * rewrite (cut_app (length w0)) by lia. apply Forall_app. split; [exact Hw0|]. rewrite cut_done. exact Hs.
      * rewrite <- rest_app. rewrite H2. exists (done (rest w0 ++ c) ++ ls). split.
        { rewrite H1, done_app, app_assoc. reflexivity. }
        { unfold take_lines. rewrite fold_left_app. reflexivity. }
    + rewrite E, loop_long by assumption. rewrite shut_chunks. exists xs. split; [|reflexivity].
      assert (Hd : done (w0 ++ c) ++ [rest (w0 ++ c)] = done w0 ++ xs ++ p :: l).
      { rewrite <- cut_done, (cut_app (length w0)) by lia. rewrite E. reflexivity. }
      assert (Hx' : Forall (fun x => (length x <= max)%nat) (done w0 ++ xs)) by (apply Forall_app; auto).
      rewrite (cut_app (length (w0 ++ c))) in Hc by lia.
      destruct l as [|l0 l] using rev_ind.
      * rewrite (app_assoc (done w0)) in Hd. apply app_inj_tail in Hd as [Hd1 Hd2]. rewrite Hd1 in Hc.
        destruct (cut (rest (w0 ++ c) ++ concat cs)) as [|q l] eqn:Eq; [exfalso; revert Eq; apply cut_nonempty|].
        apply prefix_piece in Eq; [|apply rest_none]. rewrite Hd2 in Eq.
        symmetry. eapply same_stop; [exact Hc|exact Hx'|lia|exact Hg|exact Hb].
      * clear IHl. change (xs ++ p :: l ++ [l0]) with (xs ++ (p :: l) ++ [l0]) in Hd. rewrite !app_assoc in Hd.
        apply app_inj_tail in Hd as [Hd1 Hd2]. rewrite Hd1 in Hc. rewrite <- !app_assoc in Hc. cbn [app] in Hc.
        rewrite app_assoc in Hc. symmetry. eapply same_stop; [exact Hc|exact Hx'|lia|exact Hg|exact Hb].
Qed.
Lemma long_line addr cs (s : @server S) ls r good bad more :
  lines_of (concat cs) ls r -> ls ++ [r] = good ++ bad :: more ->
  Forall (fun x => (length x < max)%nat) good -> (max < length bad)%nat ->
  feed_chunks cfg max false cs (conn_new addr) s =
    (Conn addr [] false, fold_left (fun s l => fst (received cfg addr l s)) good s).
Proof.
  intros Hl E Hg Hb. apply lines_of_iff in Hl as [<- <-]. rewrite <- cut_done in E.
  destruct (chunks_long addr cs [] s good bad more E) as (ls & -> & H); [repeat constructor; cbn; lia|assumption..|]. exact H.
Qed.
End long.

(** without CR LF nothing ever arrives *)
Lemma no_line {S} cfg max addr cs (s : @server S) : ~ has_crlf (concat cs) ->
  snd (feed_chunks cfg max false cs (conn_new addr) s) = s.
Proof.
  intros H. assert (Hl : lines_of (concat cs) [] (concat cs)) by (split; [reflexivity|split; [constructor|exact H]]).
  destruct (Nat.le_gt_cases (length (concat cs)) max) as [Hm|Hm].
  - rewrite stream_ok.
    + apply lines_of_iff in Hl as [-> _]. reflexivity.
    + intros a b E. eapply Forall_impl; [apply cut_short|]. cbn. intros p Hp. rewrite E, app_length in Hm. lia.
  - rewrite (long_line cfg max addr cs s [] (concat cs) [] (concat cs) []); [reflexivity|exact Hl|reflexivity|constructor|exact Hm].
Qed.
