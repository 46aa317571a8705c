From Verif Require Import Base StrFacts LineSpec LineFacts AssemblySpec Num Process Service ServiceSpec ServiceFacts Ini IniSpec IniFacts IniRead WordSpec.

(** ** long options *)
Definition takes (n : str) : bool := negb (str_eqb n (B "version") || str_eqb n (B "help")).
Definition completion (p : str) : option str :=
  match List.filter (starts_with p) long_names with
  | [] => None
  | ms => if existsb (str_eqb p) ms then Some p
          else match ms with
               | [m] => if existsb (str_eqb m) unabbreviated then None else Some m
               | _ => None
               end
  end.
Lemma starts_with_prefix p s : starts_with p s = true <-> p `prefix_of` s.
Proof. apply starts_with_iff. Qed.
Lemma long_has_args_prefix p : existsb (starts_with p) long_names = false -> ~ In "="%char p -> long_has_args p = None.
Proof.
  intros H He. unfold long_has_args. replace (List.filter (starts_with p) long_options) with (@nil str); [reflexivity|]. symmetry.
  assert (K : forall n, starts_with p (n ++ B "=") = starts_with p n).
  { intros n. apply eq_true_iff_eq. rewrite !starts_with_iff. split; [|intros [t ->]; exists (t ++ B "="); rewrite app_assoc; reflexivity].
    intros [t E]. destruct t as [|c t _] using rev_ind.
    - exfalso. rewrite app_nil_r in E. apply He. rewrite <- E. apply in_or_app. right. left. reflexivity.
    - rewrite app_assoc in E. apply app_inj_tail in E as [-> _]. eauto. }
  assert (L : forall x, In x long_options -> exists n, In n long_names /\ (x = n ++ B "=" \/ x = n)).
  { assert (A : forallb (fun x => existsb (fun n => str_eqb x (n ++ B "=") || str_eqb x n) long_names) long_options = true) by (vm_compute; reflexivity).
    intros x Hx. rewrite forallb_forall in A. apply A, existsb_exists in Hx as (n & Hn & E). exists n. split; [exact Hn|]. apply orb_true_iff in E as [E|E]; apply str_eqb_eq in E; auto. }
  destruct (List.filter _ _) as [|x l] eqn:E; [reflexivity|]. exfalso.
  assert (Hx : In x (List.filter (starts_with p) long_options)) by (rewrite E; left; reflexivity). apply filter_In in Hx as [Hx Hs].
  destruct (L x Hx) as (n & Hn & [-> | ->]); [rewrite K in Hs|]; apply not_true_iff_false in H; apply H, existsb_exists; eauto.
Qed.
Lemma completion_prefix p : existsb (starts_with p) long_names = false -> completion p = None.
Proof.
  intros H. unfold completion. destruct (List.filter _ _) as [|x l] eqn:E; [reflexivity|]. exfalso.
  assert (Hx : In x (List.filter (starts_with p) long_names)) by (rewrite E; left; reflexivity). apply filter_In in Hx as [Hx Hs].
  apply not_true_iff_false in H. apply H, existsb_exists. eauto.
Qed.
Definition agrees (p : str) : bool :=
  match long_has_args p, completion p with
  | None, None => true
  | Some (b, n), Some m => str_eqb n m && Bool.eqb b (takes n)
  | _, _ => false
  end.
Lemma all_agree : forallb (fun n => forallb (fun k => agrees (firstn k n)) (seq 0 (S (length n)))) long_names = true.
Proof. vm_compute. reflexivity. Qed.
Lemma agree p : ~ In "="%char p -> agrees p = true.
Proof.
  intros He. destruct (existsb (starts_with p) long_names) eqn:E.
  - apply existsb_exists in E as (n & Hn & Hs). apply starts_with_iff in Hs as [t ->].
    pose proof all_agree as A. rewrite forallb_forall in A. specialize (A _ Hn). rewrite forallb_forall in A.
    specialize (A (length p)). rewrite firstn_app, Nat.sub_diag, firstn_O, app_nil_r, firstn_all in A. apply A. apply in_seq. rewrite app_length. lia.
  - unfold agrees. rewrite long_has_args_prefix, completion_prefix by assumption. reflexivity.
Qed.
Lemma long_names_NoDup : NoDup long_names.
Proof. apply (bool_decide_eq_true_1 _). vm_compute. reflexivity. Qed.
Lemma completion_iff p n : completion p = Some n <-> completes p n.
Proof.
  unfold completion. split.
  - destruct (List.filter (starts_with p) long_names) as [|x l] eqn:E; [discriminate|].
    assert (F : forall m, In m (x :: l) <-> In m long_names /\ p `prefix_of` m) by (intros m; rewrite <- E, filter_In, starts_with_prefix; reflexivity).
    destruct (existsb (str_eqb p) (x :: l)) eqn:Ex.
    + intros [= <-]. apply existsb_exists in Ex as (y & Hy & Ey). apply str_eqb_eq in Ey as <-. apply cp_exact. apply F in Hy as [Hy _]. exact Hy.
    + destruct l; [|discriminate]. destruct (existsb (str_eqb x) unabbreviated) eqn:Eu; [discriminate|]. intros [= <-].
      destruct (proj1 (F x) (or_introl eq_refl)) as [H1 H2]. apply cp_begin; [|exact H1| |exact H2|].
      * intros Hp. apply not_true_iff_false in Ex. apply Ex, existsb_exists. exists p. split; [apply F; split; [exact Hp|reflexivity]|apply str_eqb_refl].
      * intros Hu. apply not_true_iff_false in Eu. apply Eu, existsb_exists. exists x. split; [exact Hu|apply str_eqb_refl].
      * intros m Hm Hp. destruct (proj2 (F m) (conj Hm Hp)) as [<-|[]]. reflexivity.
  - intros H. assert (F : forall m, In m (List.filter (starts_with p) long_names) <-> In m long_names /\ p `prefix_of` m) by (intros m; rewrite filter_In, starts_with_prefix; reflexivity).
    assert (Nf : NoDup (List.filter (starts_with p) long_names)).
    { apply NoDup_ListNoDup, List.NoDup_filter, NoDup_ListNoDup, long_names_NoDup. }
    destruct H as [n Hn|p n H1 H2 H3 H4 H5].
    + assert (Hin : In n (List.filter (starts_with n) long_names)) by (apply F; split; [exact Hn|reflexivity]).
      destruct (List.filter _ _) as [|x l]; [destruct Hin|]. replace (existsb (str_eqb n) (x :: l)) with true; [reflexivity|]. symmetry. apply existsb_exists. exists n. split; [exact Hin|apply str_eqb_refl].
    + assert (Hin : In n (List.filter (starts_with p) long_names)) by (apply F; split; assumption).
      assert (El : List.filter (starts_with p) long_names = [n]).
      { destruct (List.filter _ _) as [|x l]; [destruct Hin|]. assert (x = n) as -> by (apply H5; apply F; left; reflexivity).
        destruct l as [|y l]; [reflexivity|]. assert (y = n) as -> by (apply H5; apply F; right; left; reflexivity). apply NoDup_cons in Nf as [Nf _]. exfalso. apply Nf. left. }
      rewrite El. replace (existsb (str_eqb p) [n]) with false. 2:{ symmetry. apply not_true_iff_false. intros Ex. cbn in Ex. rewrite orb_false_r in Ex. apply str_eqb_eq in Ex as ->. contradiction. }
      replace (existsb (str_eqb n) unabbreviated) with false; [reflexivity|]. symmetry. apply not_true_iff_false. intros Ex. apply existsb_exists in Ex as (y & Hy & Ey). apply str_eqb_eq in Ey as <-. contradiction.
Qed.
Lemma takes_iff n : takes n = true <-> ~ prints n.
Proof.
  unfold takes, prints. rewrite negb_true_iff, orb_false_iff, !str_eqb_neq. tauto.
Qed.
Lemma long_iff p b n : ~ In "="%char p -> (long_has_args p = Some (b, n) <-> completes p n /\ b = takes n).
Proof.
  intros He. rewrite <- completion_iff. generalize (agree p He). unfold agrees. generalize (completion p), (long_has_args p).
  intros c [[b' n']|] A; destruct c as [m|]; try discriminate.
  - apply andb_true_iff in A as [A1 A2]. apply str_eqb_eq in A1 as ->. apply eqb_prop in A2 as ->. split; [intros [= <- <-]; auto|intros [[= <-] ->]; reflexivity].
  - split; [discriminate|intros [H _]; discriminate].
Qed.
Lemma letter_iff c : letter c <-> exists b, short_has_arg c = Some b.
Proof.
  unfold short_has_arg, of_letter. split.
  - intros (n & d & k & H). apply table_documented in H. destruct (List.find (fun '(_, l, _, _) => eqc l c) option_table) as [[[[n' l] d'] k']|] eqn:E; [eexists; reflexivity|].
    exfalso. pose proof (List.find_none _ _ E _ H) as F. cbn in F. rewrite eqc_refl in F. discriminate.
  - intros [b H]. destruct (List.find _ _) as [[[[n l] d] k]|] eqn:E; [|discriminate]. apply List.find_some in E as [E1 E2]. apply eqc_eq in E2 as ->. apply table_documented in E1. exists n, d, k. exact E1.
Qed.
Lemma letter_dash c : letter c -> c <> "-"%char.
Proof. intros (n & d & k & H) ->. repeat (destruct H as [H|H]; [discriminate|]). destruct H. Qed.
Lemma completes_nonempty n : ~ completes [] n.
Proof. rewrite <- completion_iff. vm_compute. discriminate. Qed.

(** ** the words *)
Lemma B_dash r : B "-" ++ r = "-"%char :: r. Proof. reflexivity. Qed.
Lemma B_dashes r : B "--" ++ r = "-"%char :: "-"%char :: r. Proof. reflexivity. Qed.
Lemma word_cases w : w = B "--" \/ (exists o, w = B "--" ++ o /\ o <> []) \/ (exists c o, w = B "-" ++ c :: o /\ c <> "-"%char) \/ (forall r, w = B "-" ++ r -> r = []).
Proof.
  destruct w as [|a w]; [right; right; right; intros r [=]|]. destruct (ascii_dec a "-") as [->|Ha].
  2:{ right. right. right. intros r [= E]. contradiction. }
  destruct w as [|b w]; [right; right; right; intros r [= <-]; reflexivity|]. destruct (ascii_dec b "-") as [->|Hb].
  - destruct w as [|c w]; [left; reflexivity|]. right. left. exists (c :: w). split; [reflexivity|discriminate].
  - right. right. left. exists b, w. auto.
Qed.
(** what a step of getopt does with each form *)
Lemma getopt_dashes f ws opts : getopt (S f) (B "--" :: ws) opts = Some (opts, ws).
Proof. reflexivity. Qed.
Lemma getopt_other f w ws opts : (forall r, w = B "-" ++ r -> r = []) -> getopt (S f) (w :: ws) opts = Some (opts, w :: ws).
Proof.
  intros H. cbn [getopt]. destruct (str_eqb w (B "--")) eqn:E; [apply str_eqb_eq in E as ->; specialize (H (B "-") eq_refl); discriminate|].
  destruct w as [|a w]; [reflexivity|]. destruct (ascii_dec a "-") as [->|Ha].
  - specialize (H w eq_refl). subst w. reflexivity.
  - destruct a as [[] [] [] [] [] [] [] []]; try reflexivity. contradiction.
Qed.
Lemma getopt_long f o ws opts : o <> [] -> getopt (S f) ((B "--" ++ o) :: ws) opts =
  let '(opt, given) := match split1 "=" o with Some (a, b) => (a, Some b) | None => (o, None) end in
  match long_has_args opt, given with
  | None, _ => None
  | Some (true, o), Some v => getopt f ws (opts ++ [(FLong o, v)])
  | Some (true, o), None => match ws with [] => None | v :: ws' => getopt f ws' (opts ++ [(FLong o, v)]) end
  | Some (false, o), None => getopt f ws (opts ++ [(FLong o, [])])
  | Some (false, _), Some _ => None
  end.
Proof. intros H. destruct o as [|c o]; [contradiction|]. reflexivity. Qed.
Lemma getopt_short f c v ws opts : c <> "-"%char -> getopt (S f) ((B "-" ++ c :: v) :: ws) opts =
  match short_has_arg c with
  | None => None
  | Some _ => match v with
              | [] => match ws with [] => None | v :: ws' => getopt f ws' (opts ++ [(FShort c, v)]) end
              | v => getopt f ws (opts ++ [(FShort c, v)])
              end
  end.
Proof.
  intros H. change (B "-" ++ c :: v) with ("-"%char :: c :: v). cbn [getopt].
  replace (str_eqb ("-"%char :: c :: v) (B "--")) with false.
  2:{ symmetry. apply str_eqb_neq. intros E. injection E as -> _. contradiction. }
  destruct c as [[] [] [] [] [] [] [] []]; try reflexivity. contradiction.
Qed.
Lemma getopt_sound fuel : forall ws opts args rest, getopt fuel ws opts = Some (args, rest) -> exists new, args = opts ++ new /\ words_say ws new rest.
Proof.
  induction fuel as [|f IH]; intros ws opts args rest H; [discriminate|].
  destruct ws as [|w ws]; [injection H as <- <-; exists []; rewrite app_nil_r; split; [reflexivity|constructor]|].
  destruct (word_cases w) as [->|[(o & -> & Ho)|[(c & v & -> & Hc)|Hw]]].
  - rewrite getopt_dashes in H. injection H as <- <-. exists []. rewrite app_nil_r. split; [reflexivity|constructor].
  - rewrite getopt_long in H by exact Ho. destruct (split1 "=" o) as [[a v]|] eqn:Es.
    + apply split1_Some in Es as [-> He]. destruct (long_has_args a) as [[[] n]|] eqn:El; try discriminate. apply long_iff in El as [Hc Ht]; [|exact He]. symmetry in Ht. apply takes_iff in Ht.
      apply IH in H as (new & -> & Hn). exists ((FLong n, v) :: new). rewrite <- app_assoc. split; [reflexivity|]. exact (ws_long a n v ws new rest He Hc Ht Hn).
    + apply split1_None in Es. destruct (long_has_args o) as [[[] n]|] eqn:El; try discriminate; apply long_iff in El as [Hc Ht]; try exact Es; symmetry in Ht.
      * apply takes_iff in Ht. destruct ws as [|v ws]; [discriminate|]. apply IH in H as (new & -> & Hn). exists ((FLong n, v) :: new). rewrite <- app_assoc. split; [reflexivity|]. apply (ws_long_next o n v ws new rest); assumption.
      * assert (Hp : prints n) by (unfold takes in Ht; apply negb_false_iff, orb_true_iff in Ht as [Ht|Ht]; apply str_eqb_eq in Ht; unfold prints; auto).
        apply IH in H as (new & -> & Hn). exists ((FLong n, []) :: new). rewrite <- app_assoc. split; [reflexivity|]. apply (ws_prints o n ws new rest); assumption.
  - rewrite getopt_short in H by exact Hc. destruct (short_has_arg c) eqn:El; [|discriminate]. assert (Hl : letter c) by (apply letter_iff; eauto).
    destruct v as [|x v].
    + destruct ws as [|v ws]; [discriminate|]. apply IH in H as (new & -> & Hn). exists ((FShort c, v) :: new). rewrite <- app_assoc. split; [reflexivity|]. apply (ws_short_next c v ws new rest); assumption.
    + apply IH in H as (new & -> & Hn). exists ((FShort c, x :: v) :: new). rewrite <- app_assoc. split; [reflexivity|]. apply (ws_short c (x :: v) ws new rest); [assumption|discriminate|assumption].
  - rewrite getopt_other in H by exact Hw. injection H as <- <-. exists []. rewrite app_nil_r. split; [reflexivity|constructor; exact Hw].
Qed.
Lemma getopt_complete ws new rest : words_say ws new rest -> forall fuel opts, (length ws < fuel)%nat -> getopt fuel ws opts = Some (opts ++ new, rest).
Proof.
  assert (Ne : forall p n, completes p n -> p <> []) by (intros p n H ->; eapply completes_nonempty, H).
  induction 1 as [|ws|w ws Hw|p n v ws args rest He Hc Hp _ IH|p n v ws args rest He Hc Hp _ IH|p n ws args rest He Hc Hp _ IH|c v ws args rest Hl Hv _ IH|c v ws args rest Hl _ IH];
    intros fuel opts Hf; (destruct fuel as [|fuel]; [lia|]); cbn [length] in Hf.
  - rewrite app_nil_r. reflexivity.
  - rewrite app_nil_r. apply getopt_dashes.
  - rewrite app_nil_r. apply getopt_other, Hw.
  - rewrite getopt_long by (pose proof (Ne _ _ Hc); destruct p; [contradiction|discriminate]). change (p ++ B "=" ++ v) with (p ++ "="%char :: v). rewrite split1_app by exact He.
    rewrite (proj2 (long_iff p true n He)) by (split; [exact Hc|symmetry; apply takes_iff, Hp]). rewrite IH by lia. rewrite <- app_assoc. reflexivity.
  - rewrite getopt_long by (eapply Ne, Hc). rewrite (proj2 (split1_None _ _) He).
    rewrite (proj2 (long_iff p true n He)) by (split; [exact Hc|symmetry; apply takes_iff, Hp]). rewrite IH by lia. rewrite <- app_assoc. reflexivity.
  - rewrite getopt_long by (eapply Ne, Hc). rewrite (proj2 (split1_None _ _) He).
    rewrite (proj2 (long_iff p false n He)) by (split; [exact Hc|symmetry; apply not_true_iff_false; rewrite takes_iff; tauto]). rewrite IH by lia. rewrite <- app_assoc. reflexivity.
  - change (B "-" ++ [c] ++ v) with (B "-" ++ c :: v). rewrite getopt_short by (apply letter_dash, Hl). apply letter_iff in Hl as [b ->]. destruct v as [|x v]; [contradiction|]. rewrite IH by lia. rewrite <- app_assoc. reflexivity.
  - change (B "-" ++ [c]) with (B "-" ++ c :: []). rewrite getopt_short by (apply letter_dash, Hl). apply letter_iff in Hl as [b ->]. rewrite IH by lia. rewrite <- app_assoc. reflexivity.
Qed.
Theorem getopt_iff ws args rest : getopt (S (length ws)) ws [] = Some (args, rest) <-> words_say ws args rest.
Proof.
  split.
  - intros H. apply getopt_sound in H as (new & -> & H). exact H.
  - intros H. rewrite (getopt_complete _ _ _ H) by lia. reflexivity.
Qed.

(** ** the options *)
Lemma says_names ws args rest : words_say ws args rest -> sets_only args -> Forall (fun a => exists n, names (fst a) n) args.
Proof.
  assert (N : forall p n, completes p n -> ~ prints n -> names (FLong n) n).
  { intros p n H Hp. assert (Hn : In n long_names) by (destruct H; assumption). unfold long_names in Hn. apply in_app_or in Hn as [Hn|Hn].
    - apply in_map_iff in Hn as ([[[n' c] d] k] & <- & Hn). exists c, d, k. auto.
    - exfalso. apply Hp. destruct Hn as [<-|[<-|[]]]; [left|right]; reflexivity. }
  induction 1 as [|ws|w ws Hw|p n v ws args rest He Hc Hp _ IH|p n v ws args rest He Hc Hp _ IH|p n ws args rest He Hc Hp _ IH|c v ws args rest Hl Hv _ IH|c v ws args rest Hl _ IH]; intros Hs;
    try solve [constructor].
  all: assert (Hs' : sets_only args) by (intros m u Hm; apply (Hs m u); right; exact Hm).
  - constructor; [exists n; apply (N p); assumption|auto].
  - constructor; [exists n; apply (N p); assumption|auto].
  - exfalso. apply (Hs n []); [left; reflexivity|exact Hp].
  - constructor; [|auto]. destruct Hl as (n & d & k & Hl). exists n, c, d, k. auto.
  - constructor; [|auto]. destruct Hl as (n & d & k & Hl). exists n, c, d, k. auto.
Qed.
Lemma informs_iff f : informs f = true <-> exists n, f = FLong n /\ prints n.
Proof.
  unfold informs, prints. destruct f as [n|c]; [|split; [discriminate|intros (n & H & _); discriminate]].
  rewrite orb_true_iff, !str_eqb_eq. split; [intros H; exists n; auto|intros (m & [= <-] & H); exact H].
Qed.
Definition arg_fold := rfold (fun (o : options) (a : flag * str) => let '(f, v) := a in match flag_name f with Some n => set_option UsageError n v o | None => Ok o end).
Lemma dispatch_fold args : forall o, sets_only args -> forallb (fun '(f, _) => match flag_name f with Some _ => true | None => false end) args = true ->
  dispatch args o = match arg_fold args o with Ok o' => Options o' | Exn e => Raises e end.
Proof.
  unfold arg_fold. induction args as [|[f v] args IH]; intros o Hs Hf; [reflexivity|]. cbn [forallb] in Hf. apply andb_true_iff in Hf as [H1 H2]. cbn [dispatch rfold].
  destruct (informs f) eqn:Ei. { apply informs_iff in Ei as (n & -> & Hp). exfalso. eapply Hs; [left; reflexivity|exact Hp]. }
  destruct (flag_name f) as [n|]; [|discriminate]. destruct (set_option UsageError n v o); cbn [rbind]; [|reflexivity]. apply IH; [|exact H2]. intros m u Hm. apply (Hs m u). right. exact Hm.
Qed.
Lemma dispatch_only args : forall o o', dispatch args o = Options o' -> sets_only args.
Proof.
  induction args as [|[f v] args IH]; intros o o' H n u Hin Hp; [destruct Hin|]. cbn [dispatch] in H. destruct (informs f) eqn:Ei; [discriminate|].
  destruct Hin as [[= -> ->]|Hin]; [apply not_true_iff_false in Ei; apply Ei, informs_iff; eauto|].
  destruct (flag_name f) as [m|]; [|discriminate]. destruct (set_option UsageError m v o); [|discriminate]. eapply IH; eassumption.
Qed.
Lemma file_says_read texts path file : read_path texts path = inr file <-> file_says texts path file.
Proof.
  unfold read_path, file_says. destruct (texts path) as [t|].
  - rewrite read_iff. split; [intros (bs & H & ->); right; exists t, bs; auto|intros [[H _]|(t' & bs & [= <-] & H & ->)]; [discriminate|eauto]].
  - split; [intros [= <-]; left; auto|intros [[_ ->]|(t & bs & H & _)]; [reflexivity|discriminate]].
Qed.
Lemma names_flag a : Forall (fun a => exists n, names (fst a) n) a -> forallb (fun '((f, _) : flag * str) => match flag_name f with Some _ => true | None => false end) a = true.
Proof.
  intros H. apply forallb_forall. intros [f v] Hin. rewrite List.Forall_forall in H. destruct (H _ Hin) as [n Hn]. cbn [fst] in Hn. apply flag_name_iff in Hn. rewrite Hn. reflexivity.
Qed.
Lemma meaning_NoDup bs : NoDup (map fst (meaning bs)).
Proof.
  unfold meaning. rewrite map_map. cbn [fst]. rewrite map_id. apply NoDup_filter, firsts_NoDup.
Qed.
Lemma file_says_NoDup texts path file : file_says texts path file -> NoDup (map fst file).
Proof. intros [[_ ->]|(t & bs & _ & _ & ->)]; [apply NoDup_nil_2|apply meaning_NoDup]. Qed.
Lemma arg_fold_upto args o : arg_fold args options_init = Ok o -> upto (cmd args) o.
Proof.
  intros E. exact (rfold_upto arg_step arg_tr args (fun tr a o o' => arg_upto tr a o o') [] _ _ upto_init E).
Qed.
Lemma parse_fold files args : parse_options files args =
  if forallb (fun '(f, _) => match flag_name f with Some _ => true | None => false end) args then
    rbind (arg_fold args options_init) (fun o => match o !! B "config" with Some (OS path) => configure (map (fun '(f, _) => flag_text f) args) (files path) o | _ => Ok o end)
  else Exn UsageError.
Proof. reflexivity. Qed.
Lemma options_of_words texts ws args rest : words_say ws args rest -> options_of texts ws =
  match dispatch args options_init with
  | Options o => match rest with _ :: _ => Raises UsageError | [] =>
      match o !! B "config" with
      | Some (OS path) => match read_path texts path with inl e => BadFile e | inr file => match configure (map (fun '(f, _) => flag_text f) args) file o with Ok o => Options o | Exn e => Raises e end end
      | _ => Options o end end
  | x => x
  end.
Proof. intros H. unfold options_of. rewrite (proj2 (getopt_iff _ _ _) H). reflexivity. Qed.
Theorem options_iff texts ws o : options_of texts ws = Options o <->
  exists args file, words_say ws args [] /\ sets_only args /\ NoDup (map fst file) /\
    (forall path, config_path args (Some path) -> file_says texts path file) /\ parse_options (fun _ => file) args = Ok o.
Proof.
  split.
  - intros H. destruct (getopt (S (length ws)) ws []) as [[args rest]|] eqn:G; [|unfold options_of in H; rewrite G in H; discriminate].
    apply getopt_iff in G. rewrite (options_of_words _ _ _ _ G) in H. destruct (dispatch args options_init) as [o1|e|e|] eqn:D; try discriminate. destruct rest as [|? ?]; [|discriminate].
    pose proof (dispatch_only _ _ _ D) as So. pose proof (names_flag _ (says_names _ _ _ G So)) as Nf. rewrite dispatch_fold in D by assumption.
    destruct (arg_fold args options_init) as [o1'|e] eqn:F; [|discriminate]. injection D as ->.
    destruct (config_at args o1 (arg_fold_upto _ _ F)) as (x & Hx & [[-> Hc]|(path & -> & Hc)]); rewrite Hx in H.
    + exists args, []. split; [exact G|]. split; [exact So|]. split; [apply NoDup_nil_2|]. split; [intros p Hp; pose proof (config_path_fun _ _ _ Hc Hp); discriminate|].
      rewrite parse_fold, Nf, F. cbn [rbind]. rewrite Hx. congruence.
    + destruct (read_path texts path) as [e|file] eqn:R; [discriminate|]. apply file_says_read in R. exists args, file. split; [exact G|]. split; [exact So|].
      split; [eapply file_says_NoDup, R|]. split; [intros p Hp; pose proof (config_path_fun _ _ _ Hc Hp) as E; injection E as <-; exact R|].
      rewrite parse_fold, Nf, F. cbn [rbind]. rewrite Hx. destruct (configure _ file o1); [congruence|discriminate].
  - intros (args & file & G & So & Nd & Hf & Hp). rewrite (options_of_words _ _ _ _ G). pose proof (names_flag _ (says_names _ _ _ G So)) as Nf. rewrite dispatch_fold by assumption.
    rewrite parse_fold, Nf in Hp. destruct (arg_fold args options_init) as [o1|e] eqn:F; [|discriminate]. cbn [rbind] in Hp.
    destruct (config_at args o1 (arg_fold_upto _ _ F)) as (x & Hx & [[-> Hc]|(path & -> & Hc)]); rewrite Hx in *; [congruence|].
    apply Hf, file_says_read in Hc. rewrite Hc, Hp. reflexivity.
Qed.
(** the values on the command line by themselves *)
Lemma parse_no_file args : forallb (fun '(f, _) => match flag_name f with Some _ => true | None => false end) args = true ->
  forall o, parse_options (fun _ => [(B "statsd", [])]) args = Ok o <-> arg_fold args options_init = Ok o.
Proof.
  intros Nf o. rewrite parse_fold, Nf. destruct (arg_fold args options_init) as [o1|e]; cbn [rbind]; [|split; discriminate].
  destruct (o1 !! B "config") as [[]|]; reflexivity.
Qed.
Definition command_ok (args : list (flag * str)) : Prop := exists o, parse_options (fun _ => [(B "statsd", [])]) args = Ok o.
Theorem bad_file_iff texts ws e : options_of texts ws = BadFile e <->
  exists args path t, words_say ws args [] /\ sets_only args /\ command_ok args /\ config_path args (Some path) /\ texts path = Some t /\ read_config t = inl e.
Proof.
  split.
  - intros H. destruct (getopt (S (length ws)) ws []) as [[args rest]|] eqn:G; [|unfold options_of in H; rewrite G in H; discriminate].
    apply getopt_iff in G. rewrite (options_of_words _ _ _ _ G) in H.
    destruct (dispatch args options_init) as [o1|e1|e1|] eqn:D; try discriminate.
    2:{ exfalso. clear G. revert D H. generalize options_init. induction args as [|[f v] args IH]; intros o D H; [discriminate|]. cbn [dispatch] in D. destruct (informs f); [discriminate|]. destruct (flag_name f); [|discriminate]. destruct (set_option _ _ _ _); [|discriminate]. eapply IH; eassumption. }
    destruct rest as [|? ?]; [|discriminate].
    pose proof (dispatch_only _ _ _ D) as So. pose proof (names_flag _ (says_names _ _ _ G So)) as Nf. rewrite dispatch_fold in D by assumption.
    destruct (arg_fold args options_init) as [o1'|e1] eqn:F; [|discriminate]. injection D as ->.
    destruct (config_at args o1 (arg_fold_upto _ _ F)) as (x & Hx & [[-> Hc]|(path & -> & Hc)]); rewrite Hx in H; [discriminate|].
    unfold read_path in H. destruct (texts path) as [t|] eqn:T; [|destruct (configure _ [] o1); discriminate].
    destruct (read_config t) as [e1|file] eqn:R; [|destruct (configure _ file o1); discriminate]. injection H as ->.
    exists args, path, t. split; [exact G|]. split; [exact So|]. split; [exists o1; apply (parse_no_file _ Nf), F|]. auto.
  - intros (args & path & t & G & So & [o1 Ho] & Hc & T & R). rewrite (options_of_words _ _ _ _ G). pose proof (names_flag _ (says_names _ _ _ G So)) as Nf. rewrite dispatch_fold by assumption.
    apply (parse_no_file _ Nf) in Ho. rewrite Ho. destruct (config_at args o1 (arg_fold_upto _ _ Ho)) as (x & Hx & [[-> Hc']|(path' & -> & Hc')]); pose proof (config_path_fun _ _ _ Hc Hc') as E; [discriminate|]. injection E as <-.
    rewrite Hx. unfold read_path. rewrite T, R. reflexivity.
Qed.
Lemma words_say_fun ws args rest args' rest' : words_say ws args rest -> words_say ws args' rest' -> args = args' /\ rest = rest'.
Proof. intros H1 H2. apply getopt_iff in H1, H2. rewrite H1 in H2. injection H2 as -> ->. auto. Qed.
Lemma dispatch_exits args : forall o, dispatch args o = Exits <->
  exists a n v b o', args = a ++ (FLong n, v) :: b /\ prints n /\ dispatch a o = Options o'.
Proof.
  induction args as [|[f u] args IH]; intros o.
  - split; [discriminate|]. intros (a & n & v & b & o' & E & _). destruct a; discriminate.
  - cbn [dispatch]. destruct (informs f) eqn:Ei.
    + split; [|reflexivity]. intros _. apply informs_iff in Ei as (n & -> & Hp). exists [], n, u, args, o. auto.
    + assert (Nb : forall a n v b, (f, u) :: args = a ++ (FLong n, v) :: b -> prints n -> exists a', a = (f, u) :: a' /\ args = a' ++ (FLong n, v) :: b).
      { intros [|y a] n v b E Hp; cbn [app] in E; injection E as E1 E2.
        - subst f. apply not_true_iff_false in Ei. exfalso. apply Ei, informs_iff. eauto.
        - subst. exists a. auto. }
      split.
      * destruct (flag_name f) as [m|] eqn:Fn; [|discriminate]. destruct (set_option UsageError m u o) as [o1|] eqn:So; [|discriminate].
        intros H. apply IH in H as (a & n & v & b & o' & -> & Hp & Hd). exists ((f, u) :: a), n, v, b, o'. split; [reflexivity|]. split; [exact Hp|]. cbn [dispatch]. rewrite Ei, Fn, So. exact Hd.
      * intros (a & n & v & b & o' & E & Hp & Hd). apply Nb in E as (a' & -> & ->); [|exact Hp]. cbn [dispatch] in Hd. rewrite Ei in Hd. destruct (flag_name f) as [m|]; [|discriminate]. destruct (set_option UsageError m u o) as [o1|]; [|discriminate].
        apply IH. exists a', n, v, b, o'. auto.
Qed.
Lemma words_say_known ws args rest : words_say ws args rest -> Forall (fun a => (exists n, fst a = FLong n /\ prints n) \/ exists n, names (fst a) n) args.
Proof.
  assert (N : forall p n, completes p n -> ~ prints n -> names (FLong n) n).
  { intros p n H Hp. assert (Hn : In n long_names) by (destruct H; assumption). unfold long_names in Hn. apply in_app_or in Hn as [Hn|Hn].
    - apply in_map_iff in Hn as ([[[n' c] d] k] & <- & Hn). exists c, d, k. auto.
    - exfalso. apply Hp. destruct Hn as [<-|[<-|[]]]; [left|right]; reflexivity. }
  induction 1 as [|ws|w ws Hw|p n v ws args rest He Hc Hp _ IH|p n v ws args rest He Hc Hp _ IH|p n ws args rest He Hc Hp _ IH|c v ws args rest Hl Hv _ IH|c v ws args rest Hl _ IH];
    try solve [constructor].
  - constructor; [right; exists n; apply (N p); assumption|auto].
  - constructor; [right; exists n; apply (N p); assumption|auto].
  - constructor; [left; exists n; auto|auto].
  - constructor; [|auto]. destruct Hl as (n & d & k & Hl). right. exists n, c, d, k. auto.
  - constructor; [|auto]. destruct Hl as (n & d & k & Hl). right. exists n, c, d, k. auto.
Qed.
Theorem exits_iff texts ws : options_of texts ws = Exits <->
  exists args rest a n v b, words_say ws args rest /\ args = a ++ (FLong n, v) :: b /\ prints n /\ sets_only a /\ command_ok a.
Proof.
  assert (Nf : forall ws a rest x b, words_say ws (a ++ x :: b) rest -> sets_only a -> forallb (fun '((f, _) : flag * str) => match flag_name f with Some _ => true | None => false end) a = true).
  { intros ws' a rest x b G So. apply names_flag. apply words_say_known in G. apply Forall_app in G as [G _]. rewrite Forall_forall in G |- *. intros [f v] Hin. destruct (G _ Hin) as [(n & E & Hp)|H]; [|exact H].
    cbn [fst] in E. subst f. exfalso. eapply So; [apply elem_of_list_In, Hin|exact Hp]. }
  split.
  - intros H. destruct (getopt (S (length ws)) ws []) as [[args rest]|] eqn:G; [|unfold options_of in H; rewrite G in H; discriminate].
    apply getopt_iff in G. rewrite (options_of_words _ _ _ _ G) in H. destruct (dispatch args options_init) as [o1|e1|e1|] eqn:D; try discriminate.
    + destruct rest; [|discriminate]. destruct (o1 !! B "config") as [[]|]; try discriminate. destruct (read_path texts _); [discriminate|]. destruct (configure _ _ o1); discriminate.
    + apply dispatch_exits in D as (a & n & v & b & o' & -> & Hp & D). pose proof (dispatch_only _ _ _ D) as So. exists (a ++ (FLong n, v) :: b), rest, a, n, v, b. split; [exact G|]. split; [reflexivity|]. split; [exact Hp|]. split; [exact So|].
      rewrite dispatch_fold in D by (assumption || eapply Nf; eassumption). destruct (arg_fold a options_init) eqn:F; [|discriminate]. eexists. apply parse_no_file; [eapply Nf; eassumption|exact F].
  - intros (args & rest & a & n & v & b & G & -> & Hp & So & [o1 Ho]). rewrite (options_of_words _ _ _ _ G).
    replace (dispatch (a ++ (FLong n, v) :: b) options_init) with Exits; [reflexivity|]. symmetry. apply dispatch_exits. apply (parse_no_file _ (Nf _ _ _ _ _ G So)) in Ho. exists a, n, v, b, o1. split; [reflexivity|]. split; [exact Hp|].
    rewrite dispatch_fold by (assumption || eapply Nf; eassumption). rewrite Ho. reflexivity.
Qed.
