(** C108, C109: the text of the configuration file and the words of the command line (service.py:82-128). *)
From Verif Require Import Base StrFacts LineSpec Num Process Service ServiceSpec ServiceFacts Ini IniSpec IniFacts IniRead IniBad IniWrite WordSpec WordFacts.
From Coq Require Import Sorting.Sorted.

(** C108.  [read_config t] is what is read from a file with the text [t]: the sections in order, each
    with its options and values, or what is refused. *)
Theorem C108_read : forall t secs, read_config t = inr secs <-> exists bs, says t bs /\ secs = meaning bs.
Proof. exact read_iff. Qed.
Print Assumptions C108_read.
Theorem C108_one : forall t bs bs', says t bs -> says t bs' -> bs = bs'.
Proof. exact says_fun. Qed.
Print Assumptions C108_one.
(** the refusals, with the numbers of the lines *)
Theorem C108_headless : forall t ls i, lines_in t ls -> (read_config t = inl (MissingHeader i) <-> headless ls i).
Proof. exact read_headless. Qed.
Print Assumptions C108_headless.
Theorem C108_stray : forall t ls ns, lines_in t ls ->
  (read_config t = inl (Parsing ns) <-> (forall i, ~ headless ls i) /\ ns <> [] /\ StronglySorted lt ns /\ forall i, In i ns <-> stray ls i).
Proof. exact read_strayed. Qed.
Print Assumptions C108_stray.
Theorem C108_names : forall t secs, read_config t = inr secs -> NoDup (map fst secs) /\ ~ In (B "DEFAULT") (map fst secs) /\
  forall n items, In (n, items) secs -> NoDup (map fst items) /\ ~ In (B "__name__") (map fst items).
Proof. intros t secs H. apply read_iff in H as (bs & _ & H). exact (meaning_names bs secs H). Qed.
Print Assumptions C108_names.
(** a file that was written plainly is read back *)
Theorem C108_written : forall bs, plain_file bs -> read_config (file_text bs) = inr (plainly bs).
Proof. exact written_read. Qed.
Print Assumptions C108_written.
(** but not every value is kept as it was written *)
Theorem C108_value_kept_refuted : exists o v, plain_option o /\ no_outer_ws v /\ ~ In c_nl v /\
  read_config (B "[statsd]
" ++ o ++ B ": " ++ v) = inr [(B "statsd", [(o, B "any")])] /\ v = B "any ;=> drop".
Proof.
  exists (B "routing"), (B "any ;=> drop"). split; [|split; [|split; [|split; [vm_compute; reflexivity|reflexivity]]]].
  - split; [discriminate|]. split; [intros c Hc; cbn in Hc; repeat (destruct Hc as [<-|Hc]; [intros H; apply LineFacts.is_space_iff in H; discriminate|]); destruct Hc|].
    split; [intros c Hc; cbn in Hc; repeat (destruct Hc as [<-|Hc]; [split; intros H; apply has_In in H; discriminate|]); destruct Hc|].
    split; [discriminate|]. intros c r E. injection E as <- _. intros H. apply has_In in H. discriminate.
  - apply LineFacts.trimmed_str_iff. split; reflexivity.
  - intros H. apply has_In in H. discriminate.
Qed.
Print Assumptions C108_value_kept_refuted.
(** and a setting of an option called rem is a comment when a space follows *)
Theorem C108_rem_refuted : read_config (B "[statsd]
rem = 5
rem: 6
") = inr [(B "statsd", [(B "rem", B "6")])].
Proof. vm_compute. reflexivity. Qed.
Print Assumptions C108_rem_refuted.
(** the file that comes with txstatsd *)
Definition C108_shipped : str := B "[statsd]
# The host where carbon cache is listening.
carbon-cache-host: localhost
# The port where carbon cache is listening.
carbon-cache-port: 2003
# The UDP port where we will listen.
listen-port: 8125

# The number of milliseconds between each flush.
flush-interval: 60000

# Which additional stats to report {process|net|io|system}.
report:
# Prefix to use when reporting stats.
prefix:
# Produce StatsD-compliant messages.
statsd-compliance: 1

# Support application monitoring. UDP echo is initially supported.
# Should we receive the monitor-message, we respond with the
# configured monitor-response.
monitor-message: txstatsd ping
monitor-response: txstatsd pong

[plugin_sample]
sample-key: sample-value".
Example C108_shipped_read : exists bs, says C108_shipped bs /\ meaning bs =
  [(B "statsd", [(B "carbon-cache-host", B "localhost"); (B "carbon-cache-port", B "2003"); (B "listen-port", B "8125");
      (B "flush-interval", B "60000"); (B "report", []); (B "prefix", []); (B "statsd-compliance", B "1");
      (B "monitor-message", B "txstatsd ping"); (B "monitor-response", B "txstatsd pong")]);
   (B "plugin_sample", [(B "sample-key", B "sample-value")])].
Proof.
  destruct (proj1 (read_iff C108_shipped (match read_config C108_shipped with inr s => s | _ => [] end))) as (bs & H & E).
  - vm_compute. reflexivity.
  - exists bs. split; [exact H|]. rewrite <- E. vm_compute. reflexivity.
Qed.
(** a file with everything: defaults, a section twice, a value over lines, comments *)
Example C108_everything : read_config (B "# settings
[DEFAULT]
prefix: common
[statsd] ; the section
Routing = any => drop
  # not a comment
   any => metric_type c
rem this is one
prefix=a;b
[other]
x : """"
[statsd]
prefix: p ; why
") = inr [(B "statsd", [(B "prefix", B "p"); (B "routing", B "any => drop
# not a comment
any => metric_type c")]); (B "other", [(B "prefix", B "common"); (B "x", [])])].
Proof. vm_compute. reflexivity. Qed.
Example C108_refused_case : read_config (B "# x

listen-port: 1
") = inl (MissingHeader 3) /\ read_config (B "[statsd]
 port: 1
port: 2
nonsense
") = inl (Parsing [2; 4]%nat).
Proof. split; vm_compute; reflexivity. Qed.
Example C108_plain_case : plain_file [(B "statsd", [(B "routing", [B "any => drop"; B "# more"])])].
Proof.
  split; [apply NoDup_singleton|]. constructor; [|constructor]. split; [|split; [apply NoDup_singleton|]].
  - split; [discriminate|]. split; [intros H; apply has_In in H; discriminate|]. split; [intros H; apply has_In in H; discriminate|discriminate].
  - constructor; [|constructor]. split.
    + split; [discriminate|]. split; [intros c Hc; cbn in Hc; repeat (destruct Hc as [<-|Hc]; [intros H; apply LineFacts.is_space_iff in H; discriminate|]); destruct Hc|].
      split; [intros c Hc; cbn in Hc; repeat (destruct Hc as [<-|Hc]; [split; intros H; apply has_In in H; discriminate|]); destruct Hc|].
      split; [discriminate|]. intros c r E. injection E as <- _. intros H. apply has_In in H. discriminate.
    + exists (B "any => drop"), [B "# more"]. split; [reflexivity|]. split.
      * split; [apply LineFacts.trimmed_str_iff; split; reflexivity|]. split; [intros H; apply has_In in H; discriminate|]. split; [intros H; apply has_In in H; discriminate|discriminate].
      * constructor; [|constructor]. split; [discriminate|]. split; [apply LineFacts.trimmed_str_iff; split; reflexivity|]. intros H. apply has_In in H. discriminate.
Qed.

(** C109.  [options_of texts ws] is what a command line of the words [ws] comes to, where [texts] gives the text of each file. *)
Theorem C109_words : forall ws args rest, getopt (S (length ws)) ws [] = Some (args, rest) <-> words_say ws args rest.
Proof. exact getopt_iff. Qed.
Print Assumptions C109_words.
Theorem C109_one : forall ws args rest args' rest', words_say ws args rest -> words_say ws args' rest' -> args = args' /\ rest = rest'.
Proof. exact words_say_fun. Qed.
Print Assumptions C109_one.
(** the command lines that are accepted, and the options they give; which those are is C74 *)
Theorem C109_options : forall texts ws o, options_of texts ws = Options o <->
  exists args file, words_say ws args [] /\ sets_only args /\ NoDup (map fst file) /\
    (forall path, config_path args (Some path) -> file_says texts path file) /\ parse_options (fun _ => file) args = Ok o.
Proof. exact options_iff. Qed.
Print Assumptions C109_options.
(** an option's value, from the words and the text of the file *)
Theorem C109_value : forall texts ws o args file n c d k vs, options_of texts ws = Options o -> words_say ws args [] ->
  (forall path, config_path args (Some path) -> file_says texts path file) -> NoDup (map fst file) ->
  In (n, c, d, k) documented -> supplied (fun _ => file) args n vs ->
  exists xs, Forall2 (reads_as k) vs xs /\ o !! n = Some (settled k d xs).
Proof.
  intros texts ws o args file n c d k vs H Hw Hf Hn Hi Hs. apply options_iff in H as (args' & file' & Hw' & _ & Hn' & Hf' & Hp).
  destruct (words_say_fun _ _ _ _ _ Hw Hw') as [<- _].
  assert (Hs' : supplied (fun _ => file') args n vs).
  { destruct Hs as (gs & cs & H1 & H2 & ->). exists gs, cs. split; [exact H1|]. split; [|reflexivity].
    destruct H2 as [C|p C L|p es C L E]; [apply ff_none, C|eapply ff_overridden; eassumption|]. eapply ff_entries; [exact C|exact L|].
    pose proof (proj2 (file_says_read _ _ _) (Hf _ C)) as R. rewrite (proj2 (file_says_read _ _ _) (Hf' _ C)) in R. injection R as ->. exact E. }
  apply table_documented in Hi. eapply option_settled; [intros p; exact Hn'|exact Hp|exact Hi|exact Hs'].
Qed.
Print Assumptions C109_value.
Theorem C109_bad_file : forall texts ws e, options_of texts ws = BadFile e <->
  exists args path t, words_say ws args [] /\ sets_only args /\ command_ok args /\ config_path args (Some path) /\
    texts path = Some t /\ read_config t = inl e.
Proof. exact bad_file_iff. Qed.
Print Assumptions C109_bad_file.
Theorem C109_exits : forall texts ws, options_of texts ws = Exits <->
  exists args rest a n v b, words_say ws args rest /\ args = a ++ (FLong n, v) :: b /\ prints n /\ sets_only a /\ command_ok a.
Proof. exact exits_iff. Qed.
Print Assumptions C109_exits.
(** an abbreviation of a single option can be refused *)
Theorem C109_abbreviation_refuted : exists p n, In n long_names /\ p `prefix_of` n /\ (forall m, In m long_names -> p `prefix_of` m -> m = n) /\
  forall texts v ws, options_of texts ((B "--" ++ p ++ B "=" ++ v) :: ws) = Raises UsageError.
Proof.
  exists (B "conf"), (B "config"). split; [apply elem_of_list_In; apply (bool_decide_eq_true_1 _); vm_compute; reflexivity|]. split; [exists (B "ig"); reflexivity|]. split.
  - intros m Hm Hp. apply starts_with_prefix in Hp. assert (A : forallb (fun m => implb (starts_with (B "conf") m) (str_eqb m (B "config"))) long_names = true) by (vm_compute; reflexivity).
    rewrite forallb_forall in A. specialize (A _ Hm). rewrite Hp in A. apply str_eqb_eq in A. exact A.
  - intros texts v ws. unfold options_of. cbn [length]. change (B "--" ++ B "conf" ++ B "=" ++ v) with (B "--" ++ (B "conf" ++ B "=" ++ v)). rewrite getopt_long by discriminate.
    change (B "conf" ++ B "=" ++ v) with (B "conf" ++ "="%char :: v). rewrite split1_app by (intros H; apply has_In in H; discriminate). reflexivity.
Qed.
Print Assumptions C109_abbreviation_refuted.
Definition C109_texts (p : str) : option str := if str_eqb p (B "f") then Some C108_shipped else None.
Definition options_match (x : outcome) (P : options -> Prop) : Prop := match x with Options o => P o | _ => False end.
Example C109_case : options_match (options_of C109_texts [B "--pref=p"; B "-c"; B "f"; B "-p7"; B "--listen-port"; B "9"])
  (fun o => o !! B "prefix" = Some (OS (B "p")) /\ o !! B "listen-port" = Some (OI 9) /\ o !! B "flush-interval" = Some (OI 60000) /\
     o !! B "carbon-cache-port" = Some (OL [OI 7; OI 2003]) /\ o !! B "plugin_sample" = Some (OPairs [(B "sample-key", B "sample-value")])).
Proof. vm_compute. repeat split. Qed.
Example C109_words_case : words_say [B "--pref=p"; B "-c"; B "f"; B "-p7"; B "rest"] [(FLong (B "prefix"), B "p"); (FShort "c", B "f"); (FShort "p", B "7")] [B "rest"].
Proof. apply getopt_iff. vm_compute. reflexivity. Qed.
Example C109_refused_case : options_of C109_texts [B "--listen-port"; B "9"; B "extra"] = Raises UsageError /\
  options_of C109_texts [B "--nonsense"] = Raises UsageError /\ options_of C109_texts [B "--config"; B "missing"] = Raises NoSectionError /\
  options_of C109_texts [B "--help"; B "--nonsense"] = Raises UsageError /\ options_of C109_texts [B "--vers"; B "extra"] = Exits /\
  options_of (fun _ => Some (B "listen-port: 1")) [B "-cf"] = BadFile (MissingHeader 1).
Proof. repeat split; vm_compute; reflexivity. Qed.
