From Verif Require Import Base StrFacts LineSpec LineFacts Num Env Stats Metrics Decimal ProcSpec Process Gen Processor Sched ReceiveFacts HistFacts Service Http Json JsonSpec JsonFacts JsonDump JsonDump2.

(** ** texts without meaning *)
Section spoilt.
Context `{NN : Num} (repr : num -> str).
Notation jv := (jv (NN := NN)).
Notation stands := (stands (NN := NN) repr).
Notation stand := (stand (NN := NN) repr).
Notation standing := (standing (NN := NN) repr).
(** a value in which the first thing without a meaning is a number that is not finite *)
Inductive spoilt : jv -> Prop :=
| p_num x : ~ finite x -> spoilt (JNum x)
| p_list l1 j1 v l2 : stand l1 j1 -> spoilt v -> spoilt (JList (l1 ++ v :: l2))
| p_dict l1 j1 k us v l2 : standing l1 j1 -> utf8_of k us -> spoilt v -> spoilt (JDict (l1 ++ (k, v) :: l2)).

Lemma float_spoilt x : ~ finite x -> In (float_json repr x) [B "NaN"; B "Infinity"; B "-Infinity"].
Proof.
  intros H. unfold float_json. destruct (neqb x x) eqn:E1; [|vm_compute; tauto]. cbn [negb].
  destruct (neqb x (nlit (FInf false))) eqn:E2; [vm_compute; tauto|]. destruct (neqb x (nlit (FInf true))) eqn:E3; [vm_compute; tauto|].
  exfalso. apply H. split; [|split]; assumption.
Qed.
Lemma number_start t : number t -> match t with c :: t' => digit c \/ (c = "-"%char /\ match t' with d :: _ => digit d | [] => False end) | [] => False end.
Proof.
  intros (sg & ip & fp & ep & -> & Hs & Hi & _).
  assert (Hip : exists d ip', ip = d :: ip' /\ digit d).
  { destruct Hi as [->|[[_ Hi] Hz]]; [exists "0"%char, []; split; [reflexivity|unfold digit; vm_compute; split; discriminate]|].
    destruct ip as [|d ip]; [contradiction|]. inversion Hi; subst. eauto. }
  destruct Hip as (d & ip' & -> & Hd). destruct Hs as [->| ->]; [left; exact Hd|right; split; [reflexivity|exact Hd]].
Qed.
Lemma no_value w r j r' : In w [B "NaN"; B "Infinity"; B "-Infinity"] -> ~ value j (w ++ r) r'.
Proof.
  assert (Hd : ~ digit "I"%char /\ ~ digit "-"%char /\ ~ digit "N"%char) by (unfold digit; vm_compute; intuition discriminate).
  assert (Hn : forall t r0, number t -> t ++ r0 = w ++ r -> ~ In w [B "NaN"; B "Infinity"; B "-Infinity"]).
  { intros t r0 Hn E Hw. apply number_start in Hn. destruct Hw as [<-|[<-|[<-|[]]]]; (destruct t as [|c t]; [exact Hn|]).
    - injection E as -> E. destruct Hn as [Hn|[Hn _]]; [tauto|discriminate].
    - injection E as -> E. destruct Hn as [Hn|[Hn _]]; [tauto|discriminate].
    - injection E as -> E. destruct Hn as [Hn|[_ Hn]]; [tauto|]. destruct t as [|d t]; [exact Hn|]. injection E as -> E. tauto. }
  intros Hw V. remember (w ++ r) as s eqn:Es. destruct V as [us s r' U|t r' Ht Hr|w0 r' Hin Hr|s r' H|l s r' H|s r' H|l s r' H].
  - destruct Hw as [<-|[<-|[<-|[]]]]; discriminate Es.
  - exact (Hn t r' Ht eq_refl Hw).
  - destruct Hin as [<-|[<-|[<-|[]]]]; destruct Hw as [<-|[<-|[<-|[]]]]; discriminate Es.
  - destruct Hw as [<-|[<-|[<-|[]]]]; discriminate Es.
  - destruct Hw as [<-|[<-|[<-|[]]]]; discriminate Es.
  - destruct Hw as [<-|[<-|[<-|[]]]]; discriminate Es.
  - destruct Hw as [<-|[<-|[<-|[]]]]; discriminate Es.
Qed.
Lemma dump_all_app l1 l2 ts : dump_all repr (l1 ++ l2) = Ok ts -> exists t1 t2, dump_all repr l1 = Ok t1 /\ dump_all repr l2 = Ok t2 /\ ts = t1 ++ t2.
Proof.
  revert ts. induction l1 as [|v l1 IH]; intros ts H; [exists [], ts; auto|]. cbn [app dump_all] in *. destruct (dumps repr v) as [t|]; [|discriminate]. cbn [rbind] in *.
  destruct (dump_all repr (l1 ++ l2)) as [ts'|]; [|discriminate]. destruct (IH _ eq_refl) as (t1 & t2 & -> & -> & ->). injection H as <-. exists (t :: t1), t2. auto.
Qed.
Lemma dump_items_app l1 l2 ts : dump_items repr (l1 ++ l2) = Ok ts -> exists t1 t2, dump_items repr l1 = Ok t1 /\ dump_items repr l2 = Ok t2 /\ ts = t1 ++ t2.
Proof.
  revert ts. induction l1 as [|[k v] l1 IH]; intros ts H; [exists [], ts; auto|]. cbn [app dump_items] in *. destruct (json_text k) as [kt|]; [|discriminate]. destruct (dumps repr v) as [t|]; [|discriminate]. cbn [rbind] in *.
  destruct (dump_items repr (l1 ++ l2)) as [ts'|]; [|discriminate]. destruct (IH _ eq_refl) as (t1 & t2 & -> & -> & ->). injection H as <-. eexists (_ :: t1), t2. auto.
Qed.
Definition texty (c : ascii) : Prop := ~ space c.
Lemma json_text_head k t : json_text k = Ok t -> exists t', t = B """" ++ t'.
Proof. unfold json_text. destruct (forallb _ k); [|destruct (utf8 k); [|discriminate]]; intros [= <-]; eauto. Qed.
Lemma float_head x : finite x -> number (repr x) -> exists c t', repr x = c :: t' /\ ~ space c.
Proof.
  intros _ H. apply number_start in H. destruct (repr x) as [|c t']; [contradiction|]. exists c, t'. split; [reflexivity|]. unfold space, digit in *.
  destruct H as [H|[-> _]]; [lia|vm_compute; intuition discriminate].
Qed.
Lemma spoilt_head v t : spoilt v -> dumps repr v = Ok t -> exists c t', t = c :: t' /\ ~ space c /\ c <> "]"%char.
Proof.
  intros H E. destruct H as [x H|l1 j1 v l2 _ _|l1 j1 k us v l2 _ _ _].
  - injection E as <-. apply float_spoilt in H. destruct H as [<-|[<-|[<-|[]]]]; (eexists _, _; split; [reflexivity|]); (split; [unfold space; vm_compute; intuition discriminate|discriminate]).
  - rewrite dumps_list in E. destruct (dump_all repr _); [|discriminate]. injection E as <-. eexists _, _. split; [reflexivity|]. split; [unfold space; vm_compute; intuition discriminate|discriminate].
  - rewrite dumps_dict in E. destruct (dump_items repr _); [|discriminate]. injection E as <-. eexists _, _. split; [reflexivity|]. split; [unfold space; vm_compute; intuition discriminate|discriminate].
Qed.
Lemma list_items s j r : value j (B "[" ++ s) r -> (exists l, items l s r) \/ ws s (B "]" ++ r).
Proof. intros V. pose proof (value_kind _ _ _ V) as K. apply kind_byte in K. vm_compute in K. inversion V; subst; try discriminate; eauto; exfalso.
  - destruct K as [[K1 K2]|K]; [apply K2; reflexivity|discriminate K].
  - destruct K as [[K1 K2]|[K1 K2]]; [apply K1; reflexivity|apply K2; reflexivity].
Qed.
Lemma dict_members s j r : value j (B "{" ++ s) r -> (exists l, members l s r) \/ ws s (B "}" ++ r).
Proof. intros V. pose proof (value_kind _ _ _ V) as K. apply kind_byte in K. vm_compute in K. inversion V; subst; try discriminate; eauto; exfalso.
  - destruct K as [[K1 K2]|K]; [apply K2; reflexivity|discriminate K].
  - destruct K as [[K1 K2]|[K1 K2]]; [apply K2; reflexivity|apply K2; reflexivity].
Qed.
Lemma ws_at sp c s s' : sp = [] \/ sp = B " " -> ~ space c -> ws (sp ++ c :: s) s' -> s' = c :: s.
Proof. intros Hs Hc H. eapply ws_fun; [exact H|]. destruct Hs as [->| ->]; [apply ws_here; exact Hc|apply ws_space; exact Hc]. Qed.
Lemma value_head j s r : value j s r -> exists c s', s = c :: s' /\ ~ space c.
Proof. intros V. pose proof (first_char _ _ _ V) as H. pose proof (value_kind _ _ _ V) as K. destruct s as [|c s]; [contradiction|]. eauto. Qed.
Lemma join_cons t t2 ts : join (B ", ") (t :: t2 :: ts) = t ++ B ", " ++ join (B ", ") (t2 :: ts).
Proof. reflexivity. Qed.
Lemma no_items v tv : dumps repr v = Ok tv -> spoilt v -> (forall r j r', ~ value j (tv ++ r) r') ->
  forall l1 j1, stand l1 j1 -> forall t1 ts, dump_all repr l1 = Ok t1 -> forall sp r l r', sp = [] \/ sp = B " " ->
  ~ items l (sp ++ join (B ", ") (t1 ++ tv :: ts) ++ r) r'.
Proof.
  intros Hv Hs Hno l1. induction l1 as [|v1 l1 IH]; intros j1 St t1 ts E sp r l r' Hsp I.
  - injection E as <-. cbn [app] in I. destruct (spoilt_head v tv Hs Hv) as (c & tv' & Etv & Hc & _).
    assert (Hj : exists rest, join (B ", ") (tv :: ts) ++ r = tv ++ rest) by (destruct ts as [|t2 ts]; [exists r; reflexivity|rewrite join_cons, <- app_assoc; eauto]).
    destruct Hj as (rest & Hj). rewrite Hj in I.
    assert (Hw : forall s1, ws (sp ++ tv ++ rest) s1 -> s1 = tv ++ rest) by (intros s1 W; rewrite Etv in *; exact (ws_at _ _ _ _ Hsp Hc W)).
    inversion I as [v0 s s1 s2 r0 W V _|v0 l0 s s1 s2 s3 r0 W V _ _]; subst; rewrite (Hw _ W) in V; exact (Hno _ _ _ V).
  - inversion St as [|? j ? j1' St1 St2]; subst. cbn [dump_all] in E. destruct (proj1 (dump_means repr) v1 j St1) as (t & Ht & Hval). rewrite Ht in E. cbn [rbind] in E.
    destruct (dump_all repr l1) as [t1'|] eqn:E1; [|discriminate]. injection E as <-. cbn [app] in I.
    assert (Hj : join (B ", ") (t :: t1' ++ tv :: ts) ++ r = t ++ B "," ++ (B " " ++ join (B ", ") (t1' ++ tv :: ts) ++ r)).
    { destruct (t1' ++ tv :: ts) as [|y ys] eqn:Ey; [destruct t1'; discriminate|]. rewrite join_cons, <- !app_assoc. reflexivity. }
    rewrite Hj in I. set (rest := B " " ++ join (B ", ") (t1' ++ tv :: ts) ++ r) in *.
    assert (V1 : value j (t ++ B "," ++ rest) (B "," ++ rest)) by (apply Hval, delim; vm_compute; tauto).
    destruct (value_head _ _ _ V1) as (c & s' & Ec & Hc). 
    assert (Hw : forall s1, ws (sp ++ t ++ B "," ++ rest) s1 -> s1 = t ++ B "," ++ rest) by (intros s1 W; rewrite Ec in *; exact (ws_at _ _ _ _ Hsp Hc W)).
    assert (Hend : forall x y, ws (B "," ++ rest) (x :: y) -> x = ","%char /\ y = rest).
    { intros x y W. assert (E : x :: y = B "," ++ rest) by (eapply ws_fun; [exact W|apply ws_close; vm_compute; tauto]). injection E as -> ->. auto. }
    inversion I as [v0 s s1 s2 r0 W V W2|v0 l0 s s1 s2 s3 r0 W V W2 I2]; subst; rewrite (Hw _ W) in V;
      destruct (proj1 json_fun _ _ _ V1 _ _ V) as [_ <-]; apply Hend in W2 as [Wc Wr]; [discriminate|]. subst s3.
    eapply (IH _ St2 t1' ts eq_refl (B " ") r); [right; reflexivity|exact I2].
Qed.
Lemma text_units k us kt : utf8_of k us -> json_text k = Ok kt -> exists w, utf16 us w /\ forall r, exists s1, kt ++ r = B """" ++ s1 /\ units w s1 r.
Proof.
  intros Hu Hk. destruct (json_text_ok k us Hu) as (w & t & Hw & Ht & Hv). rewrite Hk in Ht. injection Ht as <-. exists w. split; [exact Hw|]. intros r.
  pose proof (Hv r) as V. inversion V as [us0 s0 r0 U E1 E2 E3| | | | | |]; subst. exists s0. split; [reflexivity|exact U].
Qed.
Lemma ws_colon s s' : ws (B ": " ++ s) (B ":" ++ s') -> s' = B " " ++ s.
Proof. intros W. assert (E : B ":" ++ s' = B ": " ++ s) by (eapply ws_fun; [exact W|apply ws_close; vm_compute; tauto]). injection E as ->. reflexivity. Qed.
Lemma no_members k us v tv kt : json_text k = Ok kt -> utf8_of k us -> dumps repr v = Ok tv -> spoilt v -> (forall r j r', ~ value j (tv ++ r) r') ->
  forall l1 j1, standing l1 j1 -> forall t1 ts, dump_items repr l1 = Ok t1 -> forall sp r l r', sp = [] \/ sp = B " " ->
  ~ members l (sp ++ join (B ", ") (t1 ++ (kt ++ B ": " ++ tv) :: ts) ++ r) r'.
Proof.
  intros Hk Hu Hv Hs Hno l1. assert (Hq : ~ space """"%char) by (unfold space; vm_compute; intuition discriminate).
  induction l1 as [|[k1 v1] l1 IH]; intros j1 St t1 ts E sp r l r' Hsp I.
  - injection E as <-. cbn [app] in I. destruct (spoilt_head v tv Hs Hv) as (c & tv' & Etv & Hc & _).
    assert (Hj : exists rest, join (B ", ") ((kt ++ B ": " ++ tv) :: ts) ++ r = kt ++ B ": " ++ tv ++ rest)
      by (destruct ts as [|t2 ts]; [exists r; cbn [join]; rewrite <- !app_assoc; reflexivity|rewrite join_cons, <- !app_assoc; eauto]).
    destruct Hj as (rest & Hj). rewrite Hj in I. destruct (text_units k us kt Hu Hk) as (w & _ & Hun). destruct (Hun (B ": " ++ tv ++ rest)) as (s1 & Es1 & U).
    rewrite Es1 in I.
    assert (Hw : forall s, ws (sp ++ B """" ++ s1) (B """" ++ s) -> s = s1) by (intros s W; apply (ws_at sp """"%char s1 _ Hsp Hq) in W; injection W as ->; reflexivity).
    assert (Hw2 : forall s, ws (B " " ++ tv ++ rest) s -> s = tv ++ rest) by (intros s W; rewrite Etv in *; exact (ws_at (B " ") _ _ _ (or_intror eq_refl) Hc W)).
    inversion I as [us0 v0 s s1' s2 s3 s4 s5 r0 W U1 W1 W2 V _|us0 v0 l0 s s1' s2 s3 s4 s5 s6 r0 W U1 W1 W2 V _ _]; subst;
      rewrite (Hw _ W) in U1; destruct (units_fun _ _ _ U _ _ U1) as [_ <-]; apply ws_colon in W1; subst s3; rewrite (Hw2 _ W2) in V; exact (Hno _ _ _ V).
  - inversion St as [|? us1 w1 ? j ? j1' Hu1 Hw1 St1 St2]; subst. cbn [dump_items] in E. destruct (json_text k1) as [kt1|] eqn:Hk1; [|discriminate].
    destruct (proj1 (dump_means repr) v1 j St1) as (t & Ht & Hval). rewrite Ht in E. cbn [rbind] in E.
    destruct (dump_items repr l1) as [t1'|] eqn:E1; [|discriminate]. assert (Et : t1 = (kt1 ++ B ": " ++ t) :: t1') by (injection E as <-; reflexivity). subst t1. rewrite <- app_comm_cons in I.
    assert (Hj : join (B ", ") ((kt1 ++ B ": " ++ t) :: t1' ++ (kt ++ B ": " ++ tv) :: ts) ++ r = kt1 ++ B ": " ++ t ++ B "," ++ (B " " ++ join (B ", ") (t1' ++ (kt ++ B ": " ++ tv) :: ts) ++ r)).
    { destruct (t1' ++ (kt ++ B ": " ++ tv) :: ts) as [|y ys] eqn:Ey; [destruct t1'; discriminate|]. rewrite join_cons, <- !app_assoc. reflexivity. }
    rewrite Hj in I. set (rest := B " " ++ join (B ", ") (t1' ++ (kt ++ B ": " ++ tv) :: ts) ++ r) in *.
    assert (V1 : value j (t ++ B "," ++ rest) (B "," ++ rest)) by (apply Hval, delim; vm_compute; tauto).
    destruct (value_head _ _ _ V1) as (c & s' & Ec & Hc).
    destruct (text_units k1 us1 kt1 Hu1 Hk1) as (w & _ & Hun). destruct (Hun (B ": " ++ t ++ B "," ++ rest)) as (s1 & Es1 & U). rewrite Es1 in I.
    assert (Hw : forall s, ws (sp ++ B """" ++ s1) (B """" ++ s) -> s = s1) by (intros s W; apply (ws_at sp """"%char s1 _ Hsp Hq) in W; injection W as ->; reflexivity).
    assert (Hw2 : forall s, ws (B " " ++ t ++ B "," ++ rest) s -> s = t ++ B "," ++ rest) by (intros s W; rewrite Ec in *; exact (ws_at (B " ") _ _ _ (or_intror eq_refl) Hc W)).
    assert (Hend : forall x y, ws (B "," ++ rest) (x :: y) -> x = ","%char /\ y = rest).
    { intros x y W. assert (E' : x :: y = B "," ++ rest) by (eapply ws_fun; [exact W|apply ws_close; vm_compute; tauto]). injection E' as -> ->. auto. }
    inversion I as [us0 v0 s s1' s2 s3 s4 s5 r0 W U1 W1 W2 V W3|us0 v0 l0 s s1' s2 s3 s4 s5 s6 r0 W U1 W1 W2 V W3 I2]; subst;
      rewrite (Hw _ W) in U1; destruct (units_fun _ _ _ U _ _ U1) as [_ <-]; apply ws_colon in W1; subst s3; rewrite (Hw2 _ W2) in V;
      destruct (proj1 json_fun _ _ _ V1 _ _ V) as [_ <-]; apply Hend in W3 as [Wc Wr]; [discriminate|]. subst s6.
    eapply (IH _ St2 t1' ts eq_refl (B " ") r); [right; reflexivity|exact I2].
Qed.
Lemma spoilt_value v : spoilt v -> forall t, dumps repr v = Ok t -> forall r j r', ~ value j (t ++ r) r'.
Proof.
  induction 1 as [x Hx|l1 j1 v l2 St Sp IH|l1 j1 k us v l2 St Hu Sp IH]; intros t E r j r' V.
  - injection E as <-. eapply no_value; [apply float_spoilt, Hx|exact V].
  - rewrite dumps_list in E. destruct (dump_all repr (l1 ++ v :: l2)) as [ts|] eqn:Ed; [|discriminate]. assert (Et : t = B "[" ++ join (B ", ") ts ++ B "]") by (injection E as <-; reflexivity). subst t. clear E.
    apply dump_all_app in Ed as (t1 & t2 & E1 & E2 & ->). cbn [dump_all] in E2. destruct (dumps repr v) as [tv|] eqn:Ev; [|discriminate].
    cbn [rbind] in E2. destruct (dump_all repr l2) as [t2'|]; [|discriminate]. injection E2 as <-. rewrite <- !app_assoc in V.
    apply list_items in V as [[l I]|W]; [exact (no_items v tv Ev Sp (IH _ eq_refl) l1 j1 St t1 t2' E1 [] _ l r' (or_introl eq_refl) I)|].
    assert (Hh : exists c s', join (B ", ") (t1 ++ tv :: t2') ++ B "]" ++ r = c :: s' /\ ~ space c /\ c <> "]"%char).
    { assert (Hj : forall (x : str) xs y, exists rest, join (B ", ") (x :: xs) ++ y = x ++ rest /\ (xs = [] -> rest = y) /\ (xs <> [] -> exists z, rest = ","%char :: z)).
      { intros x xs y. destruct xs as [|x2 xs]; [exists y; split; [reflexivity|]; split; [reflexivity|contradiction]|]. eexists. rewrite join_cons, <- !app_assoc. split; [reflexivity|]. split; [discriminate|]. intros _. eexists. reflexivity. }
      destruct l1 as [|v1 l1].
      - injection E1 as <-. destruct (spoilt_head v tv Sp Ev) as (c & tv' & -> & Hc & Hc'). destruct (Hj (c :: tv') t2' (B "]" ++ r)) as (rest & Hr & _). cbn [app] in *. rewrite Hr. eauto.
      - inversion St as [|? j0 ? ? St1 St2]; subst. cbn [dump_all] in E1. destruct (proj1 (dump_means repr) v1 j0 St1) as (t & Ht & Hval). rewrite Ht in E1. cbn [rbind] in E1.
        destruct (dump_all repr l1) as [t1'|]; [|discriminate]. injection E1 as <-. rewrite <- app_comm_cons. destruct (Hj t (t1' ++ tv :: t2') (B "]" ++ r)) as (rest & Hr & _ & Hr2).
        destruct Hr2 as (z & ->); [destruct t1'; discriminate|]. assert (V1 : value j0 (t ++ ","%char :: z) (","%char :: z)) by (apply Hval, delim; vm_compute; tauto).
        rewrite Hr. destruct (value_head _ _ _ V1) as (c & s' & Ec & Hc). exists c, s'. split; [exact Ec|]. split; [exact Hc|]. intros ->. exact (proj1 (not_close _ _ _ V1 s') Ec). }
    destruct Hh as (c & s' & Ec & Hc & Hc'). rewrite Ec in W. apply (ws_at [] _ _ _ (or_introl eq_refl) Hc) in W. injection W as W _. congruence.
  - rewrite dumps_dict in E. destruct (dump_items repr (l1 ++ (k, v) :: l2)) as [ts|] eqn:Ed; [|discriminate]. assert (Et : t = B "{" ++ join (B ", ") ts ++ B "}") by (injection E as <-; reflexivity). subst t. clear E.
    apply dump_items_app in Ed as (t1 & t2 & E1 & E2 & ->). cbn [dump_items] in E2. destruct (json_text k) as [kt|] eqn:Ek; [|discriminate]. destruct (dumps repr v) as [tv|] eqn:Ev; [|discriminate].
    cbn [rbind] in E2. destruct (dump_items repr l2) as [t2'|]; [|discriminate]. assert (Et : t2 = (kt ++ B ": " ++ tv) :: t2') by (injection E2 as <-; reflexivity). subst t2. rewrite <- !app_assoc in V.
    apply dict_members in V as [[l I]|W]; [exact (no_members k us v tv kt Ek Hu Ev Sp (IH _ eq_refl) l1 j1 St t1 t2' E1 [] _ l r' (or_introl eq_refl) I)|].
    assert (Hh : exists s', join (B ", ") (t1 ++ (kt ++ B ": " ++ tv) :: t2') ++ B "}" ++ r = """"%char :: s').
    { assert (Hj : forall x xs y, exists rest, join (B ", ") (((B """" : str) ++ x) :: xs) ++ y = """"%char :: rest).
      { intros x xs y. destruct xs as [|x2 xs]; [eexists; reflexivity|]. eexists. rewrite join_cons, <- !app_assoc. reflexivity. }
      destruct l1 as [|[k1 v1] l1].
      - injection E1 as <-. destruct (json_text_head _ _ Ek) as (kt' & ->). rewrite <- app_assoc. apply Hj.
      - cbn [dump_items] in E1. destruct (json_text k1) as [kt1|] eqn:Ek1; [|discriminate]. destruct (dumps repr v1) as [tv1|]; [|discriminate]. cbn [rbind] in E1.
        destruct (dump_items repr l1) as [t1'|]; [|discriminate]. assert (Et : t1 = (kt1 ++ B ": " ++ tv1) :: t1') by (injection E1 as <-; reflexivity). subst t1. rewrite <- app_comm_cons. destruct (json_text_head _ _ Ek1) as (kt' & ->). rewrite <- app_assoc. apply Hj. }
    destruct Hh as (s' & Ec). rewrite Ec in W. apply (ws_at [] _ _ _ (or_introl eq_refl)) in W; [discriminate W|unfold space; vm_compute; intuition discriminate].
Qed.
Theorem spoilt_text v t : spoilt v -> dumps repr v = Ok t -> forall j, ~ means t j.
Proof.
  intros Sp E j (s1 & s2 & W & V & _). destruct (spoilt_head v t Sp E) as (c & t' & -> & Hc & _). apply (ws_at [] _ _ _ (or_introl eq_refl) Hc) in W. subst s1.
  apply (spoilt_value v Sp _ E [] j s2). rewrite app_nil_r. exact V.
Qed.
End spoilt.

(** ** the pages *)
Notation bytes s := (map (fun c : ascii => byte c) s).
Lemma plain_text s : Forall (fun c => byte c < 128) s -> utf8_of s (bytes s) /\ utf16 (bytes s) (bytes s).
Proof.
  intros H. assert (H0 : forall c, 0 <= byte c) by (intros c; lia). split; [split|].
  - induction H; cbn; constructor; auto. specialize (H0 x). lia.
  - induction H as [|c s Hc H IH]; [reflexivity|]. cbn [map flat_map]. rewrite <- IH. unfold utf8_bytes. assert (E : (byte c <? 128) = true) by (apply Z.ltb_lt; exact Hc). rewrite E. reflexivity.
  - induction H; cbn; constructor; auto. specialize (H0 x). lia.
Qed.
Lemma unique s v : means s v -> forall v', means s v' <-> v' = v.
Proof. intros H v'. split; [intros H'; eapply means_fun; eauto|intros ->; exact H]. Qed.

Section pages.
Context `{NN : Num} (repr : num -> str).
Notation jv := (jv (NN := NN)).
Context (Hrepr : forall x, finite x -> number (repr x)).
Definition sound_or (v : jv) : Prop := (exists j, stands repr v j) \/ spoilt repr v.
Lemma finite_dec (x : num) : {finite x} + {~ finite x}.
Proof. unfold finite. destruct (neqb x x), (neqb x (nlit (FInf false))), (neqb x (nlit (FInf true))); first [left; auto; fail|right; intuition discriminate]. Qed.
Lemma num_sound x : sound_or (JNum x).
Proof. destruct (finite_dec x) as [H|H]; [left|right; constructor; exact H]. exists (SNum (repr x)). constructor; auto. Qed.
Lemma list_sound l : Forall sound_or l -> (exists j, stand repr l j) \/ exists l1 j1 v l2, l = l1 ++ v :: l2 /\ stand repr l1 j1 /\ spoilt repr v.
Proof.
  induction 1 as [|v l Hv H IH]; [left; exists []; constructor|]. destruct Hv as [[j Hj]|Hs].
  - destruct IH as [[js Hjs]|(l1 & j1 & v' & l2 & -> & St & Sp)]; [left; eexists (_ :: _); constructor; eauto|right; exists (v :: l1), (j :: j1), v', l2].
    split; [reflexivity|]. split; [constructor; auto|exact Sp].
  - right. exists [], [], v, l. split; [reflexivity|]. split; [constructor|exact Hs].
Qed.
Lemma JList_sound l : Forall sound_or l -> sound_or (JList l).
Proof. intros H. destruct (list_sound l H) as [[j Hj]|(l1 & j1 & v & l2 & -> & St & Sp)]; [left; eexists; constructor; eauto|right; econstructor; eauto]. Qed.
Lemma JDict_sound l : Forall (fun kv => (exists us w, utf8_of (fst kv) us /\ utf16 us w) /\ sound_or (snd kv)) l -> sound_or (JDict l).
Proof.
  intros H. assert (D : (exists j, standing repr l j) \/ exists l1 j1 k us v l2, l = l1 ++ (k, v) :: l2 /\ standing repr l1 j1 /\ utf8_of k us /\ spoilt repr v).
  { induction H as [|[k v] l [(us & w & Hu & Hw) Hv] H IH]; [left; exists []; constructor|]. cbn [fst snd] in *. destruct Hv as [[j Hj]|Hs].
    - destruct IH as [[js Hjs]|(l1 & j1 & k' & us' & v' & l2 & -> & St & Hu' & Sp)]; [left; eexists (_ :: _); econstructor; eauto|right; exists ((k, v) :: l1), ((w, j) :: j1), k', us', v', l2].
      split; [reflexivity|]. split; [econstructor; eauto|auto].
    - right. exists [], [], k, us, v, l. split; [reflexivity|]. split; [constructor|auto]. }
  destruct D as [[j Hj]|(l1 & j1 & k & us & v & l2 & -> & St & Hu & Sp)]; [left; eexists; constructor; eauto|right; econstructor; eauto].
Qed.
Lemma standing_perm l : forall l' j, Permutation l l' -> standing repr l j -> exists j', Permutation j j' /\ standing repr l' j'.
Proof.
  intros l' j P. revert j. induction P as [|[k v] l l' P IH|[k1 v1] [k2 v2] l|l l1 l2 P1 IH1 P2 IH2]; intros j H.
  - exists j. auto.
  - inversion H; subst. match goal with H : standing repr l _ |- _ => destruct (IH _ H) as (j' & P' & H') end. eexists. split; [apply perm_skip; exact P'|econstructor; eauto].
  - inversion H; subst. match goal with H : standing repr (_ :: l) _ |- _ => inversion H; subst end. eexists. split; [apply perm_swap|econstructor; eauto; econstructor; eauto].
  - destruct (IH1 _ H) as (j1 & Q1 & H1). destruct (IH2 _ H1) as (j2 & Q2 & H2). exists j2. split; [etransitivity; eauto|exact H2].
Qed.
Lemma standing_keys l j : standing repr l j -> length l = length j.
Proof. induction 1; cbn; congruence. Qed.
Lemma stand_nums h : Forall finite h -> stand repr (map JNum h) (map (fun x => SNum (repr x)) h).
Proof. induction 1; cbn; constructor; auto. constructor; auto. Qed.
Lemma dump_all_ok l : Forall (fun v => exists t, dumps repr v = Ok t) l -> exists ts, dump_all repr l = Ok ts.
Proof. induction 1 as [|v l [t Ht] H [ts IH]]; [eexists; reflexivity|]. cbn [dump_all]. rewrite Ht, IH. eexists. reflexivity. Qed.
Lemma dump_items_ok l : Forall (fun kv => (exists t, json_text (fst kv) = Ok t) /\ exists t, dumps repr (snd kv) = Ok t) l -> exists ts, dump_items repr l = Ok ts.
Proof. induction 1 as [|[k v] l [[kt Hk] [t Ht]] H [ts IH]]; [eexists; reflexivity|]. cbn [fst snd] in *. cbn [dump_items]. rewrite Hk, Ht, IH. eexists. reflexivity. Qed.
(** a dictionary of numbers, lists of numbers and texts in ASCII, in any order *)
Definition simple (v : jv) (good : Prop) (j : json) : Prop :=
  (exists t, dumps repr v = Ok t) /\ sound_or v /\ (good -> stands repr v j) /\ ((exists j', stands repr v j') -> good).
Lemma simple_num x : simple (JNum x) (finite x) (SNum (repr x)).
Proof.
  split; [eexists; reflexivity|]. split; [apply num_sound|]. split; [intros H; constructor; auto|]. intros (j & H). inversion H; subst; assumption.
Qed.
Lemma simple_nums h : simple (JList (map JNum h)) (Forall finite h) (SList (map (fun x => SNum (repr x)) h)).
Proof.
  split; [rewrite dumps_list; destruct (dump_all_ok (map JNum h)) as (ts & ->); [apply Forall_forall; intros v Hv; apply elem_of_list_In, in_map_iff in Hv as (x & <- & _); eexists; reflexivity|eexists; reflexivity]|].
  split; [apply JList_sound, Forall_forall; intros v Hv; apply elem_of_list_In, in_map_iff in Hv as (x & <- & _); apply num_sound|].
  split; [intros H; constructor; apply stand_nums, H|]. intros (j & H). inversion H as [| | |l l' H1 E1 E2|]; subst. clear H. revert l' H1.
  induction h as [|x h IH]; intros l' H1; [constructor|]. cbn [map] in H1. inversion H1 as [|? ? ? ? H2 H3]; subst. inversion H2; subst. constructor; eauto.
Qed.
Lemma simple_int z : simple (JInt z) True (SNum (show_Z z)).
Proof. assert (S : stands repr (JInt z) (SNum (show_Z z))) by (constructor; apply show_Z_decimal; reflexivity). split; [eexists; reflexivity|]. split; [left; eexists; exact S|]. auto. Qed.
Lemma simple_text s : Forall (fun c => byte c < 128) s -> simple (JText s) True (SText (bytes s)).
Proof.
  intros H. destruct (plain_text s H) as [Hu Hw]. assert (S : stands repr (JText s) (SText (bytes s))) by (econstructor; eassumption).
  split; [destruct (dumps_means repr _ _ S) as (t & Ht & _); eauto|]. split; [left; eexists; exact S|]. auto.
Qed.
Inductive simples : list (str * jv) -> Prop -> list (list Z * json) -> Prop :=
| ss_nil : simples [] True []
| ss_cons k v g j l gs js : Forall (fun c => byte c < 128) k -> simple v g j -> simples l gs js -> simples ((k, v) :: l) (g /\ gs) ((bytes k, j) :: js).
Lemma simples_page l g js l' : simples l g js -> Permutation l l' -> exists t, dumps repr (JDict l') = Ok t /\
  (g -> exists js', Permutation js js' /\ forall j, means t j <-> j = SDict js') /\
  (~ g -> forall j, ~ means t j).
Proof.
  intros H P.
  assert (F : Forall (fun kv => Forall (fun c => byte c < 128) (fst kv) /\ (exists t, dumps repr (snd kv) = Ok t) /\ sound_or (snd kv)) l).
  { clear P. induction H as [|k v g j l gs js Hk Hv H IH]; constructor; [|exact IH]. destruct Hv as (H1 & H2 & _). auto. }
  assert (G1 : g -> standing repr l js).
  { clear P F. induction H as [|k v g j l gs js Hk (_ & _ & Hv & _) H IH]; [constructor|]. intros [Hg Hgs]. destruct (plain_text k Hk). econstructor; eauto. }
  assert (G2 : (exists js', standing repr l js') -> g).
  { clear P F G1. induction H as [|k v g j l gs js Hk (_ & _ & _ & Hv) H IH]; [auto|]. intros (js' & S). inversion S; subst. split; eauto. }
  assert (P' : Permutation l' l) by (symmetry; exact P). assert (F' := Permutation_Forall P F).
  destruct (dump_items_ok l') as (ts & Hts).
  { eapply Forall_impl; [exact F'|]. intros [k v] (Hk & Ht & _). cbn [fst snd] in *. split; [|exact Ht].
    destruct (plain_text k Hk) as [Hu _]. destruct (json_text_ok k _ Hu) as (w & t & _ & E & _). eauto. }
  exists (B "{" ++ join (B ", ") ts ++ B "}"). assert (Ht : dumps repr (JDict l') = Ok (B "{" ++ join (B ", ") ts ++ B "}")) by (rewrite dumps_dict, Hts; reflexivity).
  split; [exact Ht|]. split.
  - intros Hg. destruct (standing_perm l l' js P (G1 Hg)) as (js' & Pj & S). exists js'. split; [exact Pj|]. apply unique.
    destruct (dumps_means repr (JDict l') (SDict js')) as (t & E & M); [constructor; exact S|]. rewrite Ht in E. assert (Et : t = B "{" ++ join (B ", ") ts ++ B "}") by congruence. rewrite <- Et. exact M.
  - intros Hg. assert (Sd : sound_or (JDict l')).
    { apply JDict_sound. eapply Forall_impl; [exact F'|]. intros [k v] (Hk & _ & Hv). cbn [fst snd] in *. split; [|exact Hv]. destruct (plain_text k Hk). eauto. }
    destruct Sd as [[j S]|Sp]; [|eapply spoilt_text; eassumption]. exfalso. apply Hg, G2. inversion S as [| | | |l0 js' S' E1 E2]; subst.
    destruct (standing_perm l' l js' P' S') as (js2 & _ & S2). eauto.
Qed.
Lemma lit s : forallb (fun c => byte c <? 128) (B s) = true -> Forall (fun c => byte c < 128) (B s).
Proof. intros H. apply Forall_forall. intros c Hc. apply elem_of_list_In in Hc. rewrite forallb_forall in H. apply Z.ltb_lt, H, Hc. Qed.

Theorem timer_page_text order h mx mn : (forall l : list (str * jv), Permutation (order l) l) ->
  exists t, timer_text repr order (TimerPage h mx mn) = Ok t /\
  (Forall finite h /\ finite mx /\ finite mn -> exists items,
     Permutation items [(bytes (B "histogram"), SList (map (fun x => SNum (repr x)) h)); (bytes (B "max_value"), SNum (repr mx)); (bytes (B "min_value"), SNum (repr mn))] /\
     forall v, means t v <-> v = SDict items) /\
  (~ (Forall finite h /\ finite mx /\ finite mn) -> forall v, ~ means t v).
Proof.
  intros P. edestruct (simples_page [(B "histogram", JList (map JNum h)); (B "max_value", JNum mx); (B "min_value", JNum mn)]) as (t & Ht & H1 & H2).
  { eapply ss_cons; [apply lit; reflexivity|apply simple_nums|]. eapply ss_cons; [apply lit; reflexivity|apply simple_num|]. eapply ss_cons; [apply lit; reflexivity|apply simple_num|]. apply ss_nil. }
  { symmetry. apply P. }
  exists t. split; [exact Ht|]. split.
  - intros (G1 & G2 & G3). destruct H1 as (js & Pj & M); [auto|]. exists js. split; [symmetry; exact Pj|exact M].
  - intros G. apply H2. intros (G1 & G2 & G3 & _). apply G. auto.
Qed.
Theorem status_page_text order interval process_time flush_time : (forall l : list (str * jv), Permutation (order l) l) ->
  exists code t, status_page repr order interval process_time flush_time = (code, Ok t) /\
  let late := nltb (nmul (nofZ interval) (nlit (FDec false 7 (-1)))) (nadd process_time flush_time) = true in
  (late -> code = 500) /\ (~ late -> code = 200) /\
  (finite flush_time /\ finite process_time -> exists items ti word, decimal ti interval /\ (late -> word = B "ERROR") /\ (~ late -> word = B "OK") /\
     Permutation items [(bytes (B "flush_time"), SNum (repr flush_time)); (bytes (B "process_time"), SNum (repr process_time));
                        (bytes (B "flush_interval"), SNum ti); (bytes (B "status"), SText (bytes word))] /\
     forall v, means t v <-> v = SDict items) /\
  (~ (finite flush_time /\ finite process_time) -> forall v, ~ means t v).
Proof.
  intros P. unfold status_page, status_error. destruct (nltb _ _) eqn:E; cbv zeta.
  all: edestruct (simples_page ([(B "flush_time", JNum flush_time); (B "process_time", JNum process_time); (B "flush_interval", JInt interval)] ++ [(B "status", JText (if nltb (nmul (nofZ interval) (nlit (FDec false 7 (-1)))) (nadd process_time flush_time) then B "ERROR" else B "OK"))])) as (t & Ht & H1 & H2);
    [eapply ss_cons; [apply lit; reflexivity|apply simple_num|]; eapply ss_cons; [apply lit; reflexivity|apply simple_num|];
     eapply ss_cons; [apply lit; reflexivity|apply simple_int|]; eapply ss_cons; [apply lit; reflexivity|apply simple_text; rewrite E; apply lit; reflexivity|]; apply ss_nil
    |symmetry; apply P|]; rewrite E in *.
  - exists 500, t. split; [rewrite Ht; reflexivity|]. split; [auto|]. split; [intros []; reflexivity|]. split.
    + intros [G1 G2]. destruct H1 as (js & Pj & M); [auto|]. exists js, (show_Z interval), (B "ERROR"). split; [apply show_Z_decimal; reflexivity|]. split; [auto|]. split; [intros []; reflexivity|]. split; [symmetry; exact Pj|exact M].
    + intros G. apply H2. intros (G1 & G2 & _). apply G. auto.
  - exists 200, t. split; [rewrite Ht; reflexivity|]. split; [discriminate|]. split; [auto|]. split.
    + intros [G1 G2]. destruct H1 as (js & Pj & M); [auto|]. exists js, (show_Z interval), (B "OK"). split; [apply show_Z_decimal; reflexivity|]. split; [discriminate|]. split; [auto|]. split; [symmetry; exact Pj|exact M].
    + intros G. apply H2. intros (G1 & G2 & _). apply G. auto.
Qed.
End pages.

(** *** the list of names *)
Section listing.
Context `{NN : Num} (repr : num -> str).
Notation listing_page := (listing_page (NN := NN) repr).
Lemma listing_ok names ws : Forall2 (fun n w => exists us, utf8_of n us /\ utf16 us w) names ws ->
  exists t, listing_page names = Ok t /\ forall v, means t v <-> v = SDict [(bytes (B "names"), SList (map SText ws))].
Proof.
  intros H. destruct (dumps_means (NN := NN) repr (JDict [(B "names", JList (map JText names))]) (SDict [(bytes (B "names"), SList (map SText ws))])) as (t & Ht & M).
  - constructor. destruct (plain_text (B "names")) as [Hu Hw]; [apply lit; reflexivity|]. econstructor; [exact Hu|exact Hw| |constructor]. constructor.
    induction H as [|n w names ws (us & H1 & H2) H IH]; cbn; constructor; auto. econstructor; eassumption.
  - exists t. split; [exact Ht|]. apply unique, M.
Qed.
Lemma listing_plain names : Forall (Forall (fun c => byte c < 128)) names ->
  exists t, listing_page names = Ok t /\ forall v, means t v <-> v = SDict [(bytes (B "names"), SList (map (fun n => SText (bytes n)) names))].
Proof.
  intros H. destruct (listing_ok names (map (fun n => bytes n) names)) as (t & Ht & M).
  - induction H as [|n names Hn H IH]; cbn; constructor; auto. destruct (plain_text n Hn). eauto.
  - exists t. rewrite map_map in M. auto.
Qed.
Lemma listing_bad names : Exists (fun n => ~ exists us, utf8_of n us) names -> listing_page names = Exn UnicodeDecodeError.
Proof.
  intros H. unfold Json.listing_page. rewrite dumps_dict. cbn [dump_items]. destruct (json_text (B "names")) as [kt|] eqn:Ek; [|vm_compute in Ek; discriminate]. cbn [rbind].
  assert (E : dump_all repr (map JText names) = Exn UnicodeDecodeError).
  { induction names as [|n names IH]; [inversion H|]. cbn [map dump_all]. change (dumps repr (JText n)) with (json_text n).
    destruct (utf8 n) as [us|] eqn:Eu.
    - assert (Hu : utf8_of n us) by (apply utf8_iff, Eu). destruct (json_text_ok n us Hu) as (w & t & _ & -> & _). cbn [rbind]. rewrite IH; [reflexivity|].
      inversion H; subst; [exfalso; eauto|assumption].
    - rewrite json_text_bad; [reflexivity|]. intros us Hu. apply utf8_iff in Hu. congruence. }
  rewrite dumps_list, E. reflexivity.
Qed.
Lemma names_plain key : all_in name_chars key -> Forall (fun c => byte c < 128) key.
Proof.
  intros H. apply Forall_forall. intros c Hc. apply elem_of_list_In in Hc. apply H in Hc.
  assert (F : forallb (fun c => byte c <? 128) name_chars = true) by (vm_compute; reflexivity). rewrite forallb_forall in F. apply Z.ltb_lt, F, Hc.
Qed.
End listing.
Section named.
Context `{NN : Num} (plugins : list (factory (NN := NN))).
Lemma typed_chars m t key fs : typed_line m t key fs -> all_in name_chars key.
Proof. intros (raw & _ & H & _). apply normalize_key_spec in H. subst key. apply normalize_key_alphabet. Qed.
Lemma recorded_chars m key : recorded plugins m key -> all_in name_chars key.
Proof.
  intros [H|[(d & H)|[(v & H)|[(v & H)|(t & fs & f & H & _)]]]].
  - destruct H; eapply typed_chars; eassumption.
  - destruct H as (? & ? & H & _). eapply typed_chars, H.
  - destruct H as (? & ? & H & _). eapply typed_chars, H.
  - destruct H as (? & ? & H & _). eapply typed_chars, H.
  - eapply typed_chars, H.
Qed.
End named.
Theorem text_means s :
  (forall us, utf8_of s us -> exists w t, utf16 us w /\ json_text s = Ok t /\ forall v, means t v <-> v = SText w) /\
  ((forall us, ~ utf8_of s us) -> json_text s = Exn UnicodeDecodeError).
Proof.
  split; [|apply json_text_bad]. intros us Hu. destruct (json_text_ok s us Hu) as (w & t & Hw & Ht & Hv). exists w, t. split; [exact Hw|]. split; [exact Ht|].
  apply unique. pose proof (Hv []) as V. rewrite app_nil_r in V. exists t, []. split; [apply ws_here; eapply first_char, V|]. split; [exact V|]. apply ws_here. exact I.
Qed.
Theorem listing_reached (NN : Num) repr E plugins es names :
  Permutation names (elements (mp_metric_names (y_st (sys_run (NN := NN) E plugins es sys_init)))) ->
  NoDup names /\ (forall key, In key names <-> exists m, In m (lines es) /\ recorded plugins m key) /\
  exists t, listing_page repr names = Ok t /\ forall v, means t v <-> v = SDict [(bytes (B "names"), SList (map (fun n => SText (bytes n)) names))].
Proof.
  intros H. assert (H' : forall key, In key names <-> exists m, In m (lines es) /\ recorded plugins m key).
  { intros key. rewrite <- elem_of_list_In, H, elem_of_elements. apply names_exact. }
  split; [rewrite H; apply NoDup_elements|]. split; [exact H'|].
  apply listing_plain, Forall_forall. intros n Hn. apply elem_of_list_In, H' in Hn as (m & _ & Hr). apply names_plain. eapply recorded_chars, Hr.
Qed.
Theorem listing_any (NN : Num) repr names :
  (forall ws, Forall2 (fun n w => exists us, utf8_of n us /\ utf16 us w) names ws ->
     exists t, listing_page (NN := NN) repr names = Ok t /\ forall v, means t v <-> v = SDict [(bytes (B "names"), SList (map SText ws))]) /\
  (Exists (fun n => ~ exists us, utf8_of n us) names -> listing_page (NN := NN) repr names = Exn UnicodeDecodeError).
Proof. split; [apply listing_ok|apply listing_bad]. Qed.
