(** Several lines in one datagram (C88). *)
From Verif Require Import Base StrFacts Num Env Stats Glob Metrics Gen Processor
  LineSpec LineFacts FloatFacts ProcFacts ProcSpec ReceiveFacts ReceiveFacts2.

(** lines joined by newlines *)
Fixpoint newline_joined (ms : list str) : str :=
  match ms with
  | [] => []
  | [m] => m
  | m :: ms' => m ++ [c_nl] ++ newline_joined ms'
  end.

(** a line with two or three fields in the usual sense *)
Definition well_formed (m : str) : Prop := exists raw fields, line_of m raw fields.

Lemma in_split_first (c : ascii) s : In c s -> exists a b, s = a ++ c :: b /\ ~ In c a.
Proof.
  induction s as [|d s IH]; [intros []|]. intros H. destruct (ascii_dec c d) as [<-|Hn].
  - exists [], s. split; [reflexivity|intros []].
  - destruct H as [H|H]; [congruence|]. destruct (IH H) as (a & b & -> & Ha). exists (d :: a), b.
    split; [reflexivity|]. intros [Hd|Hd]; [congruence|tauto].
Qed.
Lemma split_on_prefix c w s p ps : ~ In c w -> split_on c s = p :: ps -> split_on c (w ++ s) = (w ++ p) :: ps.
Proof.
  intros Hw E. destruct (in_dec ascii_dec c s) as [Hi|Hi].
  - apply in_split_first in Hi as (a & b & -> & Ha).
    rewrite split_on_app in E by exact Ha. injection E as <- <-.
    rewrite app_assoc, split_on_app; [reflexivity|]. rewrite in_app_iff. tauto.
  - rewrite split_on_word in E by exact Hi. injection E as <- <-. apply split_on_word. rewrite in_app_iff. tauto.
Qed.

Lemma ws_without c l : all_in ws_chars l -> ~ In c ws_chars -> ~ In c l.
Proof. unfold all_in. eauto. Qed.
Lemma no_colon_ws : ~ In ":"%char ws_chars.
Proof. intros Hi. repeat (destruct Hi as [Hi|Hi]; [discriminate Hi|]). exact Hi. Qed.
Lemma no_bar_ws : ~ In "|"%char ws_chars.
Proof. intros Hi. repeat (destruct Hi as [Hi|Hi]; [discriminate Hi|]). exact Hi. Qed.

(** the text before the first [c] is determined *)
Lemma first_sep (c : ascii) a b x y : ~ In c a -> ~ In c x -> a ++ c :: b = x ++ c :: y -> a = x /\ b = y.
Proof.
  revert x. induction a as [|d a IH]; intros [|e x] Ha Hx E; cbn in *.
  - injection E as ->. auto.
  - injection E as <- E. tauto.
  - injection E as -> E. tauto.
  - injection E as <- E. destruct (IH x) as [-> ->]; tauto.
Qed.

(** the text of a line after its name and colon *)
Lemma line_text m raw fields : line_of m raw fields ->
  exists a r, m = a ++ ":"%char :: barred fields ++ r /\ ~ In ":"%char a /\ ~ In "|"%char r.
Proof.
  intros ((l & r & Hm & Hl & Hr & _) & Hk & _ & _). exists (l ++ raw), r.
  split; [rewrite Hm, <- !app_assoc; reflexivity|]. split.
  - rewrite in_app_iff. intros [H|H]; [exact (ws_without _ _ Hl no_colon_ws H)|tauto].
  - exact (ws_without _ _ Hr no_bar_ws).
Qed.
Lemma barred_pieces f0 fs z p ps : Forall (fun f => ~ In "|"%char f) (f0 :: fs) -> split_on "|" z = p :: ps ->
  split_on "|" (barred (f0 :: fs) ++ z) = removelast (f0 :: fs) ++ (List.last (f0 :: fs) [] ++ p) :: ps.
Proof.
  intros Hf Ez. revert f0 Hf. induction fs as [|f1 fs IH]; intros f0 Hf; inversion Hf as [|? ? H0 Hfs]; subst.
  - cbn [barred removelast List.last app]. apply split_on_prefix; assumption.
  - change (barred (f0 :: f1 :: fs)) with (f0 ++ B "|" ++ barred (f1 :: fs)). rewrite <- !app_assoc. change (B "|") with ["|"%char]; cbn [app].
    rewrite split_on_app by exact H0. rewrite IH by exact Hfs. reflexivity.
Qed.

(** two lines or more in one text: the second field runs over the end of the first line *)
Lemma joined_type m rest raw fields : well_formed m -> In "|"%char rest ->
  line_of (m ++ [c_nl] ++ rest) raw fields ->
  exists f0 t f2, fields = [f0; t; f2] /\ In c_nl t.
Proof.
  intros (k & fs & Hm) Hb HJ.
  pose proof Hm as (_ & _ & Hlen1 & Hf1). pose proof HJ as (_ & _ & Hlen & Hf).
  destruct (line_text _ _ _ Hm) as (a & r & -> & Ha & Hr).
  destruct (line_text _ _ _ HJ) as (b & r' & E & Hb' & Hr').
  rewrite <- app_assoc in E. cbn [app] in E.
  destruct (first_sep _ _ _ _ _ Ha Hb' E) as [_ E']. clear E.
  apply in_split_first in Hb as (x & y & -> & Hx).
  assert (Er : split_on "|" (r ++ c_nl :: x ++ "|"%char :: y) = (r ++ c_nl :: x) :: split_on "|" y).
  { replace (r ++ c_nl :: x ++ "|"%char :: y) with ((r ++ c_nl :: x) ++ "|"%char :: y) by (rewrite <- app_assoc; reflexivity).
    apply split_on_app. rewrite in_app_iff. cbn [In]. intros [H|[H|H]]; [tauto|discriminate H|tauto]. }
  apply (f_equal (split_on "|")) in E'. rewrite <- app_assoc in E'. cbn [app] in E'.
  pose proof (split_on_nonempty "|" y) as Hy.
  destruct (split_on "|" y) as [|p ps] eqn:Ey; [congruence|].
  destruct fs as [|g0 [|g1 gs]]; [cbn in Hlen1; lia..|].
  destruct fields as [|f0 [|f1 fl]]; [cbn in Hlen; lia..|].
  rewrite (barred_pieces g0 (g1 :: gs) _ _ _ Hf1 Er) in E'.
  rewrite (barred_pieces f0 (f1 :: fl) _ _ _ Hf (split_on_word _ _ Hr')) in E'.
  destruct gs as [|g2 [|]]; [| |cbn in Hlen1; lia]; (destruct fl as [|f2 [|]]; [| |cbn in Hlen; lia]);
    cbn [removelast List.last app] in E'; injection E' as E1 E2; try discriminate; try congruence.
  exists f0, f1, f2. split; [reflexivity|]. inversion E2 as [H2]. rewrite !in_app_iff. cbn [In]. auto.
Qed.

Lemma line_bar m raw fields : line_of m raw fields -> In "|"%char m.
Proof.
  intros H. pose proof H as (_ & _ & Hlen & _). destruct (line_text _ _ _ H) as (a & r & -> & _ & _).
  destruct fields as [|f0 [|f1 fl]]; [cbn in Hlen; lia..|].
  change (barred (f0 :: f1 :: fl)) with (f0 ++ B "|" ++ barred (f1 :: fl)).
  rewrite in_app_iff. right. right. rewrite !in_app_iff. left. right. left. left. reflexivity.
Qed.

Lemma batch_type ms raw fields : (2 <= length ms)%nat -> Forall well_formed ms ->
  line_of (newline_joined ms) raw fields ->
  exists f0 t f2, fields = [f0; t; f2] /\ In c_nl t.
Proof.
  intros Hn Hw H. destruct ms as [|m [|m' ms]]; [cbn in Hn; lia..|].
  inversion Hw as [|? ? Hm Hw']; subst. inversion Hw' as [|? ? Hm' _]; subst.
  change (newline_joined (m :: m' :: ms)) with (m ++ [c_nl] ++ newline_joined (m' :: ms)) in H.
  apply (joined_type m (newline_joined (m' :: ms)) raw fields Hm); [|exact H].
  destruct Hm' as (k & fs & Hm'). apply line_bar in Hm'. destruct ms as [|m2 ms]; [exact Hm'|].
  change (newline_joined (m' :: m2 :: ms)) with (m' ++ [c_nl] ++ newline_joined (m2 :: ms)). rewrite in_app_iff. auto.
Qed.

Lemma plugin_type_plain (NN : Num) (f : factory) : ~ In c_nl (factory_type f).
Proof. destruct f; cbn; intros H; repeat (destruct H as [H|H]; [discriminate H|]); exact H. Qed.

Lemma plugin_types (NN : Num) plugins t (f : factory) : plugin_table plugins !! t = Some f -> ~ In c_nl t.
Proof.
  unfold plugin_table. revert t f.
  assert (G : forall (l : list factory) (m0 : gmap str factory), (forall t f, m0 !! t = Some f -> ~ In c_nl t) ->
             forall t f, fold_left (fun m f => <[factory_type f := f]> m) l m0 !! t = Some f -> ~ In c_nl t).
  { induction l as [|g l IH]; intros m0 H t f; cbn [fold_left]; [apply H|]. apply IH.
    intros t' f'. destruct (decide (factory_type g = t')) as [<-|Hn].
    - intros _. apply plugin_type_plain.
    - rewrite lookup_insert_ne by exact Hn. apply H. }
  apply G. intros t f H. rewrite lookup_empty in H. discriminate.
Qed.

Lemma batch_malformed (NN : Num) plugins ms : (2 <= length ms)%nat -> Forall well_formed ms ->
  malformed (plugin_table plugins) (newline_joined ms).
Proof.
  intros Hn Hw. destruct (line_of_dec (newline_joined ms)) as [(raw & fields & H)|H]; [|apply mf_shape; exact H].
  destruct (batch_type ms raw fields Hn Hw H) as (f0 & t & f2 & -> & Ht).
  apply (mf_type _ _ t (normalize_key raw) [f0; t; f2]).
  - exists raw. split; [exact H|]. split; [apply normalize_key_spec; reflexivity|reflexivity].
  - intros [->|[->|[->| ->]]]; cbn in Ht; repeat (destruct Ht as [Ht|Ht]; [discriminate Ht|]); exact Ht.
  - destruct (plugin_table plugins !! t) eqn:E; [|reflexivity]. exfalso. exact (plugin_types _ _ _ _ E Ht).
Qed.
