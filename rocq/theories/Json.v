(** The pages of txstatsd/server/httpinfo.py as texts: json.dumps of python 2.7's standard library
    (json/encoder.py with its defaults: ensure_ascii, separators ", " and ": "), a dependency. *)
From Verif Require Import Base Num Process Service Http.

Definition code (c : ascii) : Z := Z.of_N (N_of_ascii c).
Definition chr (z : Z) : ascii := ascii_of_N (Z.to_N z).

(** ** byte strings are decoded as UTF-8 *)
(** str.decode("utf-8") of python 2.7, which decodes surrogates too *)
Definition cont (c : ascii) : bool := (128 <=? code c) && (code c <? 192).
Fixpoint utf8 (s : str) : option (list Z) :=
  match s with
  | [] => Some []
  | a :: s1 =>
      if code a <? 128 then cons (code a) <$> utf8 s1
      else if code a <? 194 then None
      else match s1 with
      | [] => None
      | b :: s2 =>
          if negb (cont b) then None
          else if code a <? 224 then cons ((code a - 192) * 64 + (code b - 128)) <$> utf8 s2
          else match s2 with
          | [] => None
          | c :: s3 =>
              if negb (cont c) then None
              else if code a <? 240 then
                if (code a =? 224) && (code b <? 160) then None
                else cons ((code a - 224) * 4096 + (code b - 128) * 64 + (code c - 128)) <$> utf8 s3
              else match s3 with
              | [] => None
              | d :: s4 =>
                  if negb (cont d) then None
                  else if (code a =? 240) && (code b <? 144) then None
                  else if (code a =? 244) && (143 <? code b) then None
                  else if 244 <? code a then None
                  else cons ((code a - 240) * 262144 + (code b - 128) * 4096 + (code c - 128) * 64 + (code d - 128)) <$> utf8 s4
              end
          end
      end
  end.

(** ** py_encode_basestring_ascii, json/encoder.py *)
(** [r'\u{0:04x}'.format(n)] *)
Definition hexdigit (d : Z) : ascii := chr (if d <? 10 then 48 + d else 87 + d).
Definition hex4 (n : Z) : str := [hexdigit (n / 4096); hexdigit (n / 256 mod 16); hexdigit (n / 16 mod 16); hexdigit (n mod 16)].
(** ESCAPE_DCT and the replacement function; ESCAPE_ASCII says which characters are replaced *)
Definition escape (u : Z) : str :=
  if u =? 34 then B "\""" else if u =? 92 then B "\\"
  else if u =? 8 then B "\b" else if u =? 12 then B "\f" else if u =? 10 then B "\n"
  else if u =? 13 then B "\r" else if u =? 9 then B "\t"
  else if (32 <=? u) && (u <=? 126) then [chr u]
  else if u <? 65536 then B "\u" ++ hex4 u
  else B "\u" ++ hex4 (55296 + (u - 65536) / 1024 mod 1024) ++ B "\u" ++ hex4 (56320 + (u - 65536) mod 1024).
Definition json_text (s : str) : res str :=
  if forallb (fun c => code c <? 128) s then Ok (B """" ++ flat_map (fun c => escape (code c)) s ++ B """")
  else match utf8 s with
       | Some us => Ok (B """" ++ flat_map escape us ++ B """")
       | None => Exn UnicodeDecodeError
       end.

(** ** json.dumps *)
Section dumps.
Context `{NN : Num} (repr : num -> str).
(** floatstr, json/encoder.py; [repr]: repr() of a float, or str() of an int *)
Definition float_json (x : num) : str :=
  if negb (neqb x x) then B "NaN"
  else if neqb x (nlit (FInf false)) then B "Infinity"
  else if neqb x (nlit (FInf true)) then B "-Infinity"
  else repr x.
(** the values the pages are made of; a dictionary is the list of its items in its own order *)
Inductive jv := JText (s : str) | JNum (x : num) | JInt (z : Z) | JList (l : list jv) | JDict (l : list (str * jv)).
Fixpoint dumps (v : jv) : res str :=
  match v with
  | JText s => json_text s
  | JNum x => Ok (float_json x)
  | JInt z => Ok (show_Z z)
  | JList l =>
      rbind ((fix go (l : list jv) : res (list str) :=
                match l with [] => Ok [] | v :: l' => rbind (dumps v) (fun t => rbind (go l') (fun r => Ok (t :: r))) end) l)
            (fun ts => Ok (B "[" ++ join (B ", ") ts ++ B "]"))
  | JDict l =>
      rbind ((fix go (l : list (str * jv)) : res (list str) :=
                match l with
                | [] => Ok []
                | (k, v) :: l' => rbind (json_text k) (fun kt => rbind (dumps v) (fun t => rbind (go l') (fun r => Ok ((kt ++ B ": " ++ t) :: r))))
                end) l)
            (fun ts => Ok (B "{" ++ join (B ", ") ts ++ B "}"))
  end.

(** ** the pages.  [order]: the iteration order of the page's dictionary *)
(** Status.render_GET, httpinfo.py:38-48: the code and the text *)
Definition status_page (order : list (str * jv) -> list (str * jv)) (interval : Z) (process_time flush_time : num) : Z * res str :=
  let data := [(B "flush_time", JNum flush_time); (B "process_time", JNum process_time); (B "flush_interval", JInt interval)] in
  if status_error interval process_time flush_time
  then (500, dumps (JDict (order (data ++ [(B "status", JText (B "ERROR"))]))))
  else (200, dumps (JDict (order (data ++ [(B "status", JText (B "OK"))])))).
(** ListMetrics.render_GET, httpinfo.py:57-59; [names]: get_metric_names, in some order *)
Definition listing_page (names : list str) : res str := dumps (JDict [(B "names", JList (map JText names))]).
(** TimerResource.render_GET, httpinfo.py:86-91 *)
Definition timer_text (order : list (str * jv) -> list (str * jv)) (p : page) : res str :=
  match p with
  | NoPage => Exn OtherError              (* not rendered: twisted's 404 *)
  | PageFails e => Exn e
  | TimerPage h mx mn => dumps (JDict (order [(B "histogram", JList (map JNum h)); (B "max_value", JNum mx); (B "min_value", JNum mn)]))
  end.
End dumps.
