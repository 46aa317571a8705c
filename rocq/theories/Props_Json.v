(** The texts of the HTTP pages (C107).  [means t v]: the bytes [t] are a JSON text of the value
    [v] (JsonSpec.v); a string is the sequence of its UTF-16 code units, a number its digits;
    [bytes s] is [s] as a sequence of code units, for [s] in ASCII. *)
From Verif Require Import Base StrFacts LineSpec LineFacts Num NumFacts Env Stats Glob Metrics Gen Decimal ProcSpec ProcFacts Process Processor
  Configurable Sched CSched ConfFacts ReceiveFacts HistFacts XQFacts Service Http Json JsonSpec JsonFacts JsonDump JsonDump2 JsonProps Demo
  Client Router RouterProps Server Daemon Props_Daemon Props_Flush Props_Conf.
From Coq Require Import Qcanon.
Open Scope Z_scope.

(** a JSON text has one meaning *)
Theorem C107_one_meaning : forall t v v', means t v -> means t v' -> v = v'.
Proof. exact means_fun. Qed.
Print Assumptions C107_one_meaning.
Example C107_one_meaning_case : means (B " [1 ,""\u0041""]") (SList [SNum (B "1"); SText [65]]).
Proof.
  assert (N1 : number (B "1")). { apply (proj1 (natural_number (B "1") 1 ltac:(split; [discriminate|]; split; [|discriminate]; exact (digits_cons "1"%char 1 [] 0 (digit_at 1 "1"%char eq_refl) digits_none)))). }
  exists (B "[1 ,""\u0041""]"), []. split; [apply ws_space; cbn; unfold space; vm_compute; intuition discriminate|]. split; [|apply ws_here; exact I].
  apply v_list. eapply (i_more _ _ _ (B "1 ,""\u0041""]") (B " ,""\u0041""]") (B """\u0041""]")).
  - apply ws_here. cbn. unfold space. vm_compute. intuition discriminate.
  - apply (v_num (B "1") (B " ,""\u0041""]") N1). cbn. unfold number_char, digit. vm_compute. intuition congruence.
  - apply ws_space. cbn. unfold space. vm_compute. intuition discriminate.
  - eapply (i_last _ _ (B """\u0041""]") (B "]")); [apply ws_here; cbn; unfold space; vm_compute; intuition discriminate| |apply ws_here; cbn; unfold space; vm_compute; intuition discriminate].
    apply v_text. apply (u_hex "0"%char "0"%char "4"%char "1"%char 0 0 4 1 [] (B """]") (B "]")); [exact (h_digit "0"%char ltac:(vm_compute; split; discriminate))|exact (h_digit "0"%char ltac:(vm_compute; split; discriminate))|exact (h_digit "4"%char ltac:(vm_compute; split; discriminate))|exact (h_digit "1"%char ltac:(vm_compute; split; discriminate))|]. constructor.
Qed.

(** any byte string: its text if it is UTF-8, else an exception *)
Theorem C107_text : forall s,
  (forall us, utf8_of s us -> exists w t, utf16 us w /\ json_text s = Ok t /\ forall v, means t v <-> v = SText w) /\
  ((forall us, ~ utf8_of s us) -> json_text s = Exn UnicodeDecodeError).
Proof. exact text_means. Qed.
Print Assumptions C107_text.
(** an e with an acute accent and a clef, as UTF-8; and a byte that is not *)
Definition accent : str := ["195"%char; "169"%char; "240"%char; "157"%char; "132"%char; "158"%char].
Example C107_text_case : utf8_of accent [233; 119070] /\ utf16 [233; 119070] [233; 55348; 56606] /\
  json_text accent = Ok (B """\u00e9\ud834\udd1e""") /\ forall us, ~ utf8_of ["233"%char] us.
Proof.
  split; [split; [repeat constructor; lia|reflexivity]|]. split; [apply s_one; [lia|]; exact (s_pair 55348 56606 [] [] ltac:(lia) ltac:(lia) s_none)|].
  split; [vm_compute; reflexivity|]. intros us H. apply utf8_iff in H. vm_compute in H. discriminate.
Qed.

(** GET list_metrics with the compliant processor, after any schedule: a JSON object whose
    member "names" lists the names recorded, each once *)
Theorem C107_listing : forall (NN : Num) repr E plugins es names,
  Permutation names (elements (mp_metric_names (y_st (sys_run (NN := NN) E plugins es sys_init)))) ->
  NoDup names /\ (forall key, In key names <-> exists m, In m (lines es) /\ recorded plugins m key) /\
  exists t, listing_page repr names = Ok t /\ forall v, means t v <-> v = SDict [(bytes (B "names"), SList (map (fun n => SText (bytes n)) names))].
Proof. exact @listing_reached. Qed.
Print Assumptions C107_listing.
Example C107_listing_case : 
  let es := [Recv (B "a b:1|c"); Recv (B "t:5|ms"); Recv (B "noise")] in
  Permutation [B "a_b"; B "t"] (elements (mp_metric_names (y_st (sys_run (NN := demo_num) demo_env [] es sys_init)))) /\
  listing_page (NN := demo_num) (fun _ => []) [B "a_b"; B "t"] = Ok (B "{""names"": [""a_b"", ""t""]}").
Proof.
  cbv zeta. split; [|vm_compute; reflexivity].
  assert (E : mp_metric_names (y_st (sys_run (NN := demo_num) demo_env [] [Recv (B "a b:1|c"); Recv (B "t:5|ms"); Recv (B "noise")] sys_init)) = {[B "a_b"; B "t"]}) by (apply (bool_decide_eq_true_1 _); vm_compute; reflexivity).
  rewrite E. symmetry. rewrite elements_disj_union, !elements_singleton; [reflexivity|]. apply disjoint_singleton_l. rewrite elem_of_singleton. discriminate.
Qed.
(** names that rules made may be anything: the page fails unless all are UTF-8 *)
Theorem C107_listing_any : forall (NN : Num) repr names,
  (forall ws, Forall2 (fun n w => exists us, utf8_of n us /\ utf16 us w) names ws ->
     exists t, listing_page (NN := NN) repr names = Ok t /\ forall v, means t v <-> v = SDict [(bytes (B "names"), SList (map SText ws))]) /\
  (Exists (fun n => ~ exists us, utf8_of n us) names -> listing_page (NN := NN) repr names = Exn UnicodeDecodeError).
Proof. exact @listing_any. Qed.
Print Assumptions C107_listing_any.
Definition e_config : str := B "metric_type c => rewrite a " ++ ["233"%char].
Theorem C107_listing_refuted : exists config rs es,
  build_rules toy_engine true config [] = ([], Ok rs) /\
  forall names, Permutation names (elements (mp_metric_names (d_proc (demo_daemon (fun _ _ => None) rs es)))) ->
  listing_page (NN := demo_num) (fun _ => []) names = Exn UnicodeDecodeError.
Proof.
  exists e_config. eexists. exists [DNet (SDatagram (B "u") (B "a:3|c")); DNet (SRun 0)]. split; [vm_compute; reflexivity|]. intros names H.
  apply (proj2 (listing_any demo_num _ names)). apply Exists_exists. exists ["233"%char]. split.
  - rewrite H. apply elem_of_elements. eapply bool_decide_eq_true_1. vm_compute. reflexivity.
  - intros (us & Hu). apply utf8_iff in Hu. vm_compute in Hu. discriminate.
Qed.
Print Assumptions C107_listing_refuted.

(** GET status: the code, and the text.  [finite x]: neither a NaN nor infinite; [repr]: the
    digits of a finite number; [order]: the order of the page's dictionary *)
Theorem C107_status : forall (NN : Num) repr order interval process_time flush_time,
  (forall x, finite x -> number (repr x)) -> (forall l, Permutation (order l) l) ->
  exists code t, status_page (NN := NN) repr order interval process_time flush_time = (code, Ok t) /\
  let late := nltb (nmul (nofZ interval) (nlit (FDec false 7 (-1)))) (nadd process_time flush_time) = true in
  (late -> code = 500) /\ (~ late -> code = 200) /\
  (finite flush_time /\ finite process_time -> exists items ti word, decimal ti interval /\ (late -> word = B "ERROR") /\ (~ late -> word = B "OK") /\
     Permutation items [(bytes (B "flush_time"), SNum (repr flush_time)); (bytes (B "process_time"), SNum (repr process_time));
                        (bytes (B "flush_interval"), SNum ti); (bytes (B "status"), SText (bytes word))] /\
     forall v, means t v <-> v = SDict items) /\
  (~ (finite flush_time /\ finite process_time) -> forall v, ~ means t v).
Proof. exact (fun NN repr order i p f H P => status_page_text repr H order i p f P). Qed.
Print Assumptions C107_status.
(** GET metrics/NAME: the text of a timer's page *)
Theorem C107_timer : forall (NN : Num) repr order h mx mn,
  (forall x, finite x -> number (repr x)) -> (forall l, Permutation (order l) l) ->
  exists t, timer_text (NN := NN) repr order (TimerPage h mx mn) = Ok t /\
  (Forall finite h /\ finite mx /\ finite mn -> exists items,
     Permutation items [(bytes (B "histogram"), SList (map (fun x => SNum (repr x)) h)); (bytes (B "max_value"), SNum (repr mx)); (bytes (B "min_value"), SNum (repr mn))] /\
     forall v, means t v <-> v = SDict items) /\
  (~ (Forall finite h /\ finite mx /\ finite mn) -> forall v, ~ means t v).
Proof. exact (fun NN repr order h mx mn H P => timer_page_text repr H order h mx mn P). Qed.
Print Assumptions C107_timer.
(** digits of the demo's numbers: the whole part *)
Definition whole (x : num (Num := demo_num)) : str := match x with Fin q => show_Z (QArith_base.Qnum (this q)) | _ => [] end.
Lemma whole_number x : finite (NN := demo_num) x -> number (whole x).
Proof. intros (H1 & H2 & H3). destruct x; try (apply show_Z_number); exfalso; cbn in H1, H2, H3; try discriminate; match goal with b : bool |- _ => destruct b; discriminate end. Qed.
Example C107_pages_case : (forall x, finite (NN := demo_num) x -> number (whole x)) /\
  status_page (NN := demo_num) whole (fun l => rev l) 10000 (nofZ 2) (nofZ 3) = (200, Ok (B "{""status"": ""OK"", ""flush_interval"": 10000, ""process_time"": 2, ""flush_time"": 3}")) /\
  timer_text (NN := demo_num) whole (fun l => l) (TimerPage [nofZ 2; nofZ 3] (nofZ 6) (nofZ 4)) = Ok (B "{""histogram"": [2, 3], ""max_value"": 6, ""min_value"": 4}").
Proof. split; [exact whole_number|]. split; vm_compute; reflexivity. Qed.

(** an infinite duration that the sample has forgotten: the page is no JSON text *)
Definition forget_env : env (NN := demo_num) :=
  @Env demo_num (fun _ => Fin (QcZ 0)) (fun _ => 1029) (fun _ c => N_of_ascii c) (fun _ l => l) (fun _ _ => Permutation_refl _).
Theorem C107_infinite_refuted : exists E es key t,
  timer_text (NN := demo_num) whole (fun l => l) (cp_page (creached (NN := demo_num) E (B "pre") [] [] es) key) = Ok t /\ forall v, ~ means t v.
Proof.
  exists forget_env, (Recv (B "t:inf|ms") :: repeat (Recv (B "t:1|ms")) 1027 ++ [Recv (B "t:2|ms")]), (B "t").
  match goal with |- context [cp_page ?s ?k] => assert (H : match cp_page s k with TimerPage _ mx _ => neqb (Num := demo_num) mx (nlit (FInf false)) | _ => false end = true) by (vm_compute; reflexivity);
    destruct (cp_page s k) as [|e|h mx mn]; try discriminate H end.
  destruct (timer_page_text (NN := demo_num) whole whole_number (fun l => l) h mx mn ltac:(intros; reflexivity)) as (t & Ht & _ & Hno). exists t. split; [exact Ht|].
  apply Hno. intros (_ & (_ & F & _) & _). congruence.
Qed.
Print Assumptions C107_infinite_refuted.
