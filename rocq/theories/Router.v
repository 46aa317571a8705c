(** txstatsd/server/router.py *)
From Verif Require Import Base Glob Processor Client.

(** ** TCPRedirectProtocol, router.py:115-160.  [tp_wire] is the list of calls of
    transport.write. *)
Record tproto := TP { tp_paused : bool; tp_last : option Z; tp_dropped : nat; tp_wire : list str }.
Definition tp_new : tproto := TP false None 0 [].
(** pauseProducing = stopProducing, router.py:133-138; [now] is int(time.time()) *)
Definition tp_pause (now : Z) : M tproto unit :=
  mod_ (fun p => TP true (Some now) (tp_dropped p) (tp_wire p)).
(** resumeProducing, router.py:140-148: [log] is a module, calling it is a TypeError;
    the argument [time_now - self.last_paused] is computed first *)
Definition tp_resume (now : Z) : M tproto unit :=
  let! p := get_ in
  lift_ (match tp_last p with None => Exn TypeError | Some l => Ok (now - l) end) ;!
  (raise TypeError : M tproto unit) ;!
  mod_ (fun p => TP false None 0 (tp_wire p)).
(** [line[-2:] != "\r\n"] *)
Definition ends_crlf (line : str) : bool :=
  match rev line with
  | a :: b :: _ => eqc a c_nl && eqc b c_cr
  | _ => false
  end.
(** write, router.py:150-160; [line[-1]] raises on the empty string *)
Definition tp_write (line : str) : M tproto unit := fun p =>
  if tp_paused p then (TP true (tp_last p) (S (tp_dropped p)) (tp_wire p), Ok tt)
  else
    let put l := (TP false (tp_last p) (tp_dropped p) (tp_wire p ++ [l]), Ok tt) in
    if ends_crlf line then put line
    else match last line with
         | None => (p, Exn IndexError)
         | Some c => if eqc c c_cr then put (line ++ [c_nl]) else put (line ++ [c_cr; c_nl])
         end.

(** ** TCPRedirectClientFactory, router.py:92-112.  [tf_old] keeps the protocols of
    earlier connections; [tf_ready] counts the scheduled calls of the callback. *)
Record tfactory := TF { tf_callback : bool; tf_proto : option tproto; tf_old : list tproto; tf_ready : nat }.
Definition tf_new : tfactory := TF true None [] 0.
Definition tf_build (f : tfactory) : tfactory :=
  TF false (Some tp_new) (tf_old f ++ match tf_proto f with Some p => [p] | None => [] end)
     (tf_ready f + if tf_callback f then 1 else 0).
Definition on_proto (m : M tproto unit) : M tfactory unit := fun f =>
  match tf_proto f with
  | None => (f, Ok tt)
  | Some p => let '(p', r) := m p in (TF (tf_callback f) (Some p') (tf_old f) (tf_ready f), r)
  end.
(** write, router.py:110-112 *)
Definition tf_write (line : str) : M tfactory unit := on_proto (tp_write line).

(** ** A redirect: its queueing UDP client or its TCP factory *)
Inductive rlink := LUdp (u : uclient) | LTcp (f : tfactory).
(** DataQueue's limit (protocol.py:54); a connect callback that can be called once,
    router.py:266-270: the second call raises *)
Definition redirect_cfg : ucfg :=
  Ucfg 1000 (Some (Ccb (fun _ => []) (fun n => if (n =? 0)%nat then None else Some AlreadyCalledError))) None.
Definition link_write (text : str) (l : rlink) : rlink * res unit :=
  match l with
  | LUdp u => (LUdp (uc_write redirect_cfg (text, None) u), Ok tt)
  | LTcp f => let '(f', r) := tf_write text f in (LTcp f', r)
  end.

(** ** Regular expressions: the engine of python's [re] is a parameter.
    [rx_sub r repl key] is [r.sub(repl, key)], which may raise on a bad template. *)
Record engine := Eng {
  rx : Type;
  rx_compile : str -> res rx;
  rx_match : rx -> str -> bool;
  rx_sub : rx -> str -> str -> res str }.

Definition metric : Type := str * str * list str.      (* metric_type, key, fields *)

Inductive cond :=
| CAny                                        (* router.py:212-214 *)
| CNot (c : cond)                             (* router.py:216-224 *)
| CType (types : list str)                    (* router.py:226-230 *)
| CLike (pattern : str).                      (* router.py:232-235 *)
Inductive target (G : engine) :=
| TDrop                                       (* router.py:237-241 *)
| TRewrite (r : rx G) (repl dup : str)        (* router.py:243-252 *)
| TSetType (t dup : str)                      (* router.py:254-259 *)
| TSend (link : nat)                          (* router.py:261-280, 282-298 *)
| TTrue.                                      (* lambda *args: True, router.py:262-263, 283-284 *)
Arguments TDrop {G}. Arguments TRewrite {G}. Arguments TSetType {G}. Arguments TSend {G}. Arguments TTrue {G}.

(** ** Building rules *)
(** [[p.strip() for p in text.split(" ") if p]], router.py:178-179, 197-198 *)
Definition parts_of (text : str) : list str := map strip (filter nonempty (split_on " " text)).

(** build_condition, router.py:177-186.  [n] bounds the nesting of "not"; each
    nested call has fewer parts, so [length (parts_of text)] calls suffice
    ([build_cond_iff] in RouterFacts.v). *)
Fixpoint build_cond_fuel (n : nat) (text : str) : res cond :=
  match parts_of text with
  | [] => Exn IndexError                                          (* condition_parts[0] *)
  | name :: args =>
      if str_eqb name (B "any") then match args with [] => Ok CAny | _ => Exn TypeError end
      else if str_eqb name (B "not") then
        match n with
        | O => Exn OtherError                                     (* unreachable *)
        | S n' => match build_cond_fuel n' (join (B " ") args) with
                  | Ok c => Ok (CNot c)
                  | Exn e => Exn e
                  end
        end
      else if str_eqb name (B "metric_type") then Ok (CType args)
      else if str_eqb name (B "path_like") then
        match args with [p] => Ok (CLike p) | _ => Exn TypeError end
      else Exn ValueError
  end.
Definition build_cond (text : str) : res cond := build_cond_fuel (length (parts_of text)) text.

(** the redirects made so far: TCP or not, host, port *)
Definition lspec : Type := bool * str * Z.

Section router.
Context (G : engine).

(** build_target_*, router.py:237-298; [service]: a service was given *)
Definition build_redirect (service tcp : bool) (args : list str) : M (list lspec) (target G) :=
  match args with
  | [host; port] =>
      if service then
        match parse_int port with
        | None => raise ValueError
        | Some n => fun ls => (ls ++ [(tcp, host, n)], Ok (TSend (length ls)))
        end
      else ret TTrue
  | _ => raise TypeError
  end.
Definition build_target (service : bool) (parts : list str) : M (list lspec) (target G) :=
  match parts with
  | [] => raise IndexError                                        (* target_parts[0] *)
  | name :: args =>
      if str_eqb name (B "drop") then match args with [] => ret TDrop | _ => raise TypeError end
      else if str_eqb name (B "rewrite") then
        match args with
        | [p; repl] => let! r := lift_ (rx_compile G p) in ret (TRewrite r repl (B "no-dup"))
        | [p; repl; dup] => let! r := lift_ (rx_compile G p) in ret (TRewrite r repl dup)
        | _ => raise TypeError
        end
      else if str_eqb name (B "set_metric_type") then
        match args with
        | [t] => ret (TSetType t (B "no-dup"))
        | [t; dup] => ret (TSetType t dup)
        | _ => raise TypeError
        end
      else if str_eqb name (B "redirect_udp") then build_redirect service false args
      else if str_eqb name (B "redirect_tcp") then build_redirect service true args
      else raise ValueError
  end.

(** build_rules, router.py:188-210; [line.split("=>")] must have two parts *)
Definition rule : Type := cond * target G.
Definition build_rule (service : bool) (line : str) : M (list lspec) rule :=
  match split_on2 "=" ">" line with
  | [condition; target] =>
      let! c := lift_ (build_cond condition) in
      let! t := build_target service (parts_of target) in
      ret (c, t)
  | _ => raise ValueError
  end.
Fixpoint build_lines (service : bool) (lines : list str) : M (list lspec) (list rule) :=
  match lines with
  | [] => ret []
  | line :: lines' =>
      if nonempty line then
        let! r := build_rule service line in
        let! rs := build_lines service lines' in
        ret (r :: rs)
      else build_lines service lines'
  end.
Definition build_rules (service : bool) (config : str) : M (list lspec) (list rule) :=
  build_lines service (split_on c_nl config).

(** ** Processing *)
Section process.
Context {S : Type} (process_inner : str -> str -> str -> list str -> M S unit).

(** the processor behind the router, the redirects, and the messages passed to the
    router's own [fail] *)
Record rst := RSt { r_proc : S; r_links : list rlink; r_bad : list str }.

(** the condition functions, router.py:212-235 *)
Fixpoint cond_run (c : cond) (m : metric) : res bool :=
  let '(t, key, _) := m in
  match c with
  | CAny => Ok true
  | CNot c' => match cond_run c' m with Ok b => Ok (negb b) | Exn e => Exn e end
  | CType ts => Ok (existsb (str_eqb t) ts)
  | CLike p => fnmatch key p
  end.

Definition rebuild (m : metric) : str := let '(_, key, fields) := m in rebuild_message key fields.

Definition send (link : nat) (text : str) : M rst unit := fun s =>
  match r_links s !! link with
  | None => (s, Exn OtherError)                                    (* unreachable *)
  | Some l => let '(l', r) := link_write text l in
              (RSt (r_proc s) (<[link := l']> (r_links s)) (r_bad s), r)
  end.
(** the target functions with [metrics.extend(result)], router.py:237-298, 311-313 *)
Definition target_run (t : target G) (m : metric) : M rst (list metric) :=
  let '(mt, key, fields) := m in
  match t with
  | TDrop => ret []
  | TRewrite r repl dup =>
      let copy := if str_eqb dup (B "dup") && rx_match G r key then [m] else [] in
      let! key' := lift_ (rx_sub G r repl key) in
      ret (copy ++ [(mt, key', fields)])
  | TSetType t' dup => ret ((if str_eqb dup (B "dup") then [m] else []) ++ [(t', key, fields)])
  | TSend l => send l (rebuild m) ;! ret [m]
  | TTrue => raise TypeError                                       (* extend(True) *)
  end.

(** one rule over the pending metrics, router.py:307-313 *)
Fixpoint rule_run (r : rule) (pending : list metric) : M rst (list metric) :=
  match pending with
  | [] => ret []
  | m :: ms =>
      let! b := lift_ (cond_run (fst r) m) in
      let! here := (if b then target_run (snd r) m else ret [m]) in
      let! rest := rule_run r ms in
      ret (here ++ rest)
  end.
(** router.py:303-306: [None] when the method returns early *)
Fixpoint rules_run (rs : list rule) (metrics : list metric) : M rst (option (list metric)) :=
  match rs with
  | [] => ret (Some metrics)
  | r :: rs' =>
      match metrics with
      | [] => ret None
      | _ => let! metrics' := rule_run r metrics in rules_run rs' metrics'
      end
  end.
Definition inner (f : M S unit) : M rst unit := fun s =>
  let '(p, r) := f (r_proc s) in (RSt p (r_links s) (r_bad s), r).
(** router.py:315-318 *)
Fixpoint hand_over (ms : list metric) : M rst unit :=
  match ms with
  | [] => ret tt
  | m :: ms' => inner (process_inner (rebuild m) (fst (fst m)) (snd (fst m)) (snd m)) ;! hand_over ms'
  end.
(** process_message, router.py:300-318 *)
Definition route (rs : list rule) (message metric_type key : str) (fields : list str) : M rst unit :=
  let! out := rules_run rs [(metric_type, key, fields)] in
  match out with
  | None => ret tt
  | Some ms => hand_over ms
  end.
(** BaseMessageProcessor.fail, process *)
Definition r_fail (message : str) : M rst unit :=
  mod_ (fun s => RSt (r_proc s) (r_links s) (message :: r_bad s)).
Definition r_process (rs : list rule) (message : str) : M rst unit :=
  base_process r_fail (route rs) message.
End process.

(** Router.__init__, router.py:165-175: the links of a new router.  [is_ip] as in
    Client.v. *)
Definition new_link (is_ip : str -> bool) (l : lspec) : rlink :=
  let '(tcp, host, _) := l in
  if tcp then LTcp tf_new else LUdp (fst (uc_create redirect_cfg is_ip host uc_init)).
Definition router_new (is_ip : str -> bool) (service : bool) (config : str) {S} (p : S) : res (list rule * rst (S := S)) :=
  match build_rules service config [] with
  | (ls, Ok rs) => Ok (rs, RSt p (map (new_link is_ip) ls) [])
  | (_, Exn e) => Exn e
  end.
End router.
