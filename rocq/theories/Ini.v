(** The texts behind service.py:82-128: the configuration file as RawConfigParser of python
    2.7's standard library reads it (ConfigParser.py: read, _read, sections, items), and the
    words of the command line as getopt reads them (getopt.py).  Dependencies. *)
From Verif Require Import Base Num Process Service.

(** ** fp.readline() until the file ends: lines with their newlines *)
Fixpoint readlines (s : str) : list str :=
  match s with
  | [] => []
  | c :: s' =>
      if eqc c c_nl then [c] :: readlines s'
      else match readlines s' with [] => [[c]] | l :: ls => (c :: l) :: ls end
  end.

(** ** _read *)
(** an OrderedDict: its items *)
Notation odict V := (list (str * V)).
Fixpoint od_set {V} (k : str) (v : V) (d : odict V) : odict V :=
  match d with
  | [] => [(k, v)]
  | (k', v') :: d' => if str_eqb k k' then (k, v) :: d' else (k', v') :: od_set k v d'
  end.
Fixpoint od_get {V} (k : str) (d : odict V) : option V :=
  match d with [] => None | (k', v) :: d' => if str_eqb k k' then Some v else od_get k d' end.
(** [cursect]: None, self._defaults, or the section of that name *)
Inductive place : Type := PNowhere | PDefaults | PSection (name : str).
Record ist := Ist {
  n_defaults : odict (list str);
  n_sections : odict (odict (list str));
  n_place : place;
  n_opt : option str;               (* optname *)
  n_errors : list nat }.            (* line numbers in the ParsingError *)
Definition ist0 : ist := Ist [] [] PNowhere None [].
(** how reading ends: MissingSectionHeaderError at a line, ParsingError, or the state *)
Inductive ini_error : Type := MissingHeader (line : nat) | Parsing (lines : list nat).

(** a line that is skipped *)
Definition skipped (line : str) : bool :=
  negb (nonempty (strip line)) ||
  match line with
  | [] => false
  | c :: _ => has c (B "#;") ||
      (str_eqb (map to_lower (fst (span (fun x => negb (is_space x)) (lstrip line)))) (B "rem") && has c (B "rR"))
  end.
(** SECTCRE.match: an opening bracket, one or more bytes that are no closing bracket, a
    closing bracket *)
Definition match_section (line : str) : option str :=
  match line with
  | c :: r =>
      if eqc c "[" then
        let '(h, r') := span (fun x => negb (eqc x "]")) r in
        if nonempty h && nonempty r' then Some h else None
      else None
  | [] => None
  end.
(** OPTCRE.match: the option (a byte that is no separator and no space, then any that are no
    separator), spaces, a separator, spaces, and the value up to the end of the line.  The option
    takes everything up to the first separator, and a line has no newline but its last byte *)
Definition separator (c : ascii) : bool := eqc c ":" || eqc c "=".
Definition match_option (line : str) : option (str * str) :=
  match line with
  | c :: _ =>
      if is_space c || separator c then None
      else let '(name, r) := span (fun x => negb (separator x)) line in
           match r with
           | [] => None
           | _ :: r' => Some (name, fst (span (fun x => negb (eqc x c_nl)) (lstrip r')))
           end
  | [] => None
  end.
(** [optval]: without a comment, stripped, two quotes are empty.  [optval[pos-1]] is the last
    byte when [pos] is 0 *)
Definition cut_comment (v : str) : str :=
  let '(a, r) := span (fun x => negb (eqc x ";")) v in
  match r with
  | [] => v
  | _ => match last (match a with [] => v | _ => a end) with
         | Some c => if is_space c then a else v
         | None => v
         end
  end.
Definition option_text (v : str) : str :=
  let v := strip (cut_comment v) in if str_eqb v (B """""") then [] else v.

Definition set_cur (f : odict (list str) -> odict (list str)) (s : ist) : ist :=
  match n_place s with
  | PNowhere => s
  | PDefaults => Ist (f (n_defaults s)) (n_sections s) (n_place s) (n_opt s) (n_errors s)
  | PSection n =>
      match od_get n (n_sections s) with
      | Some d => Ist (n_defaults s) (od_set n (f d) (n_sections s)) (n_place s) (n_opt s) (n_errors s)
      | None => s                                     (* never: the section was entered *)
      end
  end.
Definition set_opt (o : option str) (s : ist) : ist := Ist (n_defaults s) (n_sections s) (n_place s) o (n_errors s).
(** a header.  [__name__] stands for the string stored under that name; items never gives it *)
Definition enter (n : str) (s : ist) : ist :=
  match od_get n (n_sections s) with
  | Some _ => Ist (n_defaults s) (n_sections s) (PSection n) None (n_errors s)
  | None =>
      if str_eqb n (B "DEFAULT") then Ist (n_defaults s) (n_sections s) PDefaults None (n_errors s)
      else Ist (n_defaults s) (od_set n [(B "__name__", [n])] (n_sections s)) (PSection n) None (n_errors s)
  end.
Definition continued (line : str) (s : ist) : bool :=
  match line with c :: _ => is_space c | [] => false end &&
  match n_place s with PNowhere => false | _ => true end &&
  match n_opt s with Some o => nonempty o | None => false end.
Definition append_value (v : str) (s : ist) : ist :=
  match n_opt s with
  | Some o => set_cur (fun d => match od_get o d with Some l => od_set o (l ++ [v]) d | None => d end) s
  | None => s
  end.
Fixpoint read_lines (ls : list str) (i : nat) (s : ist) : ini_error + ist :=
  match ls with
  | [] => inr s
  | line :: ls' =>
      if skipped line then read_lines ls' (S i) s
      else if continued line s then read_lines ls' (S i) (append_value (strip line) s)
      else match match_section line with
      | Some n => read_lines ls' (S i) (enter n s)
      | None =>
          match n_place s with
          | PNowhere => inl (MissingHeader i)
          | _ =>
              match match_option line with
              | Some (name, v) =>
                  let o := map to_lower (rstrip name) in
                  read_lines ls' (S i) (set_cur (od_set o [option_text v]) (set_opt (Some o) s))
              | None => read_lines ls' (S i) (Ist (n_defaults s) (n_sections s) (n_place s) (n_opt s) (n_errors s ++ [i]))
              end
          end
      end
  end.
(** items(section): [d = defaults.copy(); d.update(section); del d["__name__"]] *)
Definition od_update {V} (d d2 : odict V) : odict V := fold_left (fun d kv => od_set (fst kv) (snd kv) d) d2 d.
Definition items_of (defaults d : odict (list str)) : list (str * str) :=
  map (fun kv => (fst kv, join [c_nl] (snd kv)))
    (List.filter (fun kv => negb (str_eqb (fst kv) (B "__name__"))) (od_update defaults d)).
Definition read_config (text : str) : ini_error + list section :=
  match read_lines (readlines text) 1 ist0 with
  | inl e => inl e
  | inr s => match n_errors s with
             | [] => inr (map (fun nd => (fst nd, items_of (n_defaults s) (snd nd))) (n_sections s))
             | es => inl (Parsing es)
             end
  end.
(** config_file.read: a file that cannot be opened is passed over *)
Definition read_path (texts : str -> option str) (path : str) : ini_error + list section :=
  match texts path with None => inr [] | Some t => read_config t end.

(** ** getopt.getopt, and twisted's usage.Options (usage.py: _gather_parameters, _gather_handlers) *)
(** longOpt: each parameter, then each opt_ method; so five names are there twice *)
Definition long_options : list str :=
  map (fun '(n, _, _, _) => n ++ B "=") option_table ++
  [B "config="; B "carbon-cache-host="; B "carbon-cache-port="; B "carbon-cache-name="; B "version"; B "help"].
(** shortOpt: all letters take a value *)
Definition short_has_arg (c : ascii) : option bool := match of_letter c with Some _ => Some true | None => None end.
(** a word for getopt: an option and whether it takes a value; None: refused *)
Definition ends_eq (s : str) : bool := match last s with Some c => eqc c "=" | None => false end.
Definition long_has_args (opt : str) : option (bool * str) :=
  let possibilities := List.filter (starts_with opt) long_options in
  match possibilities with
  | [] => None
  | p :: rest =>
      if existsb (str_eqb opt) possibilities then Some (false, opt)
      else if existsb (str_eqb (opt ++ B "=")) possibilities then Some (true, opt)
      else match rest with
           | _ :: _ => None
           | [] => if ends_eq p then Some (true, removelast p) else Some (false, p)
           end
  end.
(** what getopt gives: options with their values, and the rest of the words *)
Fixpoint getopt (fuel : nat) (words : list str) (opts : list (flag * str)) : option (list (flag * str) * list str) :=
  match fuel with
  | O => None
  | S fuel =>
      match words with
      | [] => Some (opts, [])
      | w :: ws =>
          if str_eqb w (B "--") then Some (opts, ws)
          else match w with
          | "-"%char :: "-"%char :: opt =>                               (* do_longs *)
              let '(opt, given) := match split1 "=" opt with Some (a, b) => (a, Some b) | None => (opt, None) end in
              match long_has_args opt, given with
              | None, _ => None
              | Some (true, o), Some v => getopt fuel ws (opts ++ [(FLong o, v)])
              | Some (true, o), None =>
                  match ws with [] => None | v :: ws' => getopt fuel ws' (opts ++ [(FLong o, v)]) end
              | Some (false, o), None => getopt fuel ws (opts ++ [(FLong o, [])])
              | Some (false, _), Some _ => None
              end
          | "-"%char :: c :: optstring =>                                (* do_shorts: every letter takes a value *)
              match short_has_arg c with
              | None => None
              | Some _ =>
                  match optstring with
                  | [] => match ws with [] => None | v :: ws' => getopt fuel ws' (opts ++ [(FShort c, v)]) end
                  | v => getopt fuel ws (opts ++ [(FShort c, v)])
                  end
              end
          | _ => Some (opts, words)
          end
      end
  end.

(** ** service.py:82-115 on the words of the command line and the texts of files.  Words left
    over are refused by parseArgs after the options were set; --version and --help print and exit. *)
Inductive outcome : Type := Options (o : options) | Raises (e : exn) | BadFile (e : ini_error) | Exits.
Definition informs (f : flag) : bool := match f with FLong n => str_eqb n (B "version") || str_eqb n (B "help") | FShort _ => false end.
Fixpoint dispatch (args : list (flag * str)) (o : options) : outcome :=
  match args with
  | [] => Options o
  | (f, v) :: args' =>
      if informs f then Exits
      else match flag_name f with
           | Some n => match set_option UsageError n v o with Ok o' => dispatch args' o' | Exn e => Raises e end
           | None => Raises UsageError
           end
  end.
Definition options_of (texts : str -> option str) (words : list str) : outcome :=
  match getopt (S (length words)) words [] with
  | None => Raises UsageError
  | Some (args, rest) =>
      let overridden := map (fun '(f, _) => flag_text f) args in
      match dispatch args options_init with
      | Options o =>
          match rest with
          | _ :: _ => Raises UsageError
          | [] =>
              match o !! B "config" with
              | Some (OS path) =>
                  match read_path texts path with
                  | inl e => BadFile e
                  | inr file => match configure overridden file o with Ok o => Options o | Exn e => Raises e end
                  end
              | _ => Options o
              end
          end
      | x => x
      end
  end.
