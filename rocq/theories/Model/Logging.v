(** * Logging (scaled/utility/logging/utility.py, scoped_logger.py, decorators.py)

    CPython's [logging.config.dictConfig] is transcribed as far as this configuration uses it.
    SIMPLIFICATION: formatters' [asctime] and the caller's place in the code are parts of the
    record; rotation at midnight, failures to write, file names that [dictConfig] resolves as
    objects (ext://, cfg://) and the last resort of a logger without handlers are not modelled. *)

From Verif.Model Require Import Base ZMQConfig Float Formatter.

(** utility.py:8-11. *)
Inductive log_type := Screen | File | ZMQ.
(** utility.py:35-42 [__detect_log_types]. *)
Definition detect_log_types (f : bytes) : log_type :=
  if String.eqb f "-" || String.eqb f "/dev/stdout" then Screen else if String.prefix "tcp://" f then ZMQ else File.

(** What a handler writes to: utility.py:110-116 and 119-126. *)
Inductive destination := Terminal | InFile (path : bytes).
Global Instance destination_eq_dec : EqDecision destination. Proof. solve_decision. Defined.
(** A handler's configuration: the name of its level, and where it writes. *)
Record handler := Handler { h_level : bytes; h_to : destination }.

(** [logging._nameToLevel] after the [addLevelName] of utility.py:81-85, and
    [logging.getLevelName]. *)
Definition level_numbers : list (bytes * Z) :=
  [("CRITICAL", 50); ("FATAL", 50); ("ERROR", 40); ("WARN", 30); ("WARNING", 30); ("INFO", 20); ("DEBUG", 10); ("NOTSET", 0);
   ("EROR", 40); ("DEBG", 10); ("CTIC", 50)].
Definition level_number (name : bytes) : option Z := snd <$> List.find (λ p, String.eqb p.1 name) level_numbers.
Definition level_name (n : Z) : bytes :=
  if n =? 50 then "CTIC" else if n =? 40 then "EROR" else if n =? 30 then "WARN" else if n =? 20 then "INFO" else if n =? 10 then "DEBG"
  else if n =? 0 then "NOTSET" else "Level " +:+ print_int n.

(** utility.py:88-105: the loop over the paths; [handlers] is [config["handlers"]], [names]
    the list of the root logger.  [expand] is [expandvars(expanduser(...))]. *)
Fixpoint configure (expand : bytes → bytes) (level : bytes) (files : list bytes) (handlers : gmap bytes handler) (names : list bytes) : res (gmap bytes handler * list bytes) :=
  match files with
  | [] => Ok (handlers, names)
  | f :: files =>
      match detect_log_types f with
      | Screen => configure expand level files (<["console" := Handler level Terminal]> handlers) (names ++ ["console"])
      | File => configure expand level files (<[f := Handler level (InFile (expand f))]> handlers) (names ++ [f])
      | ZMQ => Raise NotImplementedError
      end
  end.
(** [Logger.addHandler] ignores a handler that the logger has. *)
Definition add_name (l : list bytes) (n : bytes) : list bytes := if bool_decide (n ∈ l) then l else l ++ [n].
(** logging/config.py [DictConfigurator.configure]: a handler whose level is unknown or whose
    file cannot be opened ([opens]) raises ValueError; then the root logger gets the handlers. *)
Definition started (opens : bytes → bool) (h : handler) : option (Z * destination) :=
  match level_number (h_level h), h_to h with
  | Some n, Terminal => Some (n, Terminal)
  | Some n, InFile p => if opens p then Some (n, InFile p) else None
  | None, _ => None
  end.
Definition dict_config (opens : bytes → bool) (handlers : gmap bytes handler) (names : list bytes) : res (list (Z * destination)) :=
  if forallb (λ p, match started opens p.2 with Some _ => true | None => false end) (map_to_list handlers)
  then Ok (omap (λ n, handlers !! n ≫= started opens) (foldl add_name [] names))
  else Raise ValueError.
(** utility.py:29-32 [setup_logger]: the handlers of the root logger afterwards. *)
Definition setup_logger (expand : bytes → bytes) (opens : bytes → bool) (files : list bytes) (level : bytes) : res (list (Z * destination)) :=
  match configure expand level files ∅ [] with
  | Raise e => Raise e
  | Ok (handlers, names) => dict_config opens handlers names
  end.

(** A record: [logging.log(r_level, r_message)] at a place in the code. *)
Record record := Record { r_level : Z; r_time : bytes; r_module : bytes; r_function : bytes; r_line : bytes; r_message : bytes }.
(** utility.py:56-73: the formats "standard" (terminal) and "verbose" (files). *)
Definition format_record (d : destination) (r : record) : bytes :=
  match d with
  | Terminal => "[" +:+ level_name (r_level r) +:+ "]" +:+ r_time r +:+ ": " +:+ r_message r
  | InFile _ => "[" +:+ level_name (r_level r) +:+ "]" +:+ r_time r +:+ ":" +:+ r_module r +:+ ":" +:+ r_function r +:+ ":" +:+ r_line r +:+ ": " +:+ r_message r
  end.
(** [Logger.callHandlers]; the root logger's level is DEBUG (utility.py:76). *)
Definition written (handlers : list (Z * destination)) (r : record) : list (destination * bytes) :=
  if r_level r <? 10 then [] else
  omap (λ h, if h.1 <=? r_level r then Some (h.2, format_record h.2 r) else None) handlers.

(** ** Timed blocks *)

(** [int(x)] of a float that is not negative. *)
Definition float_int (x : Z * Z) : Z := x.1 / x.2.
(** scoped_logger.py:29-32: the microseconds of the timedelta; [elapsed] nanoseconds become a
    float first, [%] of floats is exact, [/] rounds. *)
Definition offset (elapsed : Z) : Z :=
  let x := float_of elapsed 1 in
  let seconds := float_int (float_of x.1 (x.2 * 10 ^ 9)) in
  let milliseconds := float_int (float_of (x.1 mod (10 ^ 9 * x.2)) (x.2 * 10 ^ 6)) in
  let microseconds := float_int (float_of (x.1 mod (10 ^ 6 * x.2)) (x.2 * 10 ^ 3)) in
  seconds * 10 ^ 6 + milliseconds * 10 ^ 3 + microseconds.
Fixpoint zeros (n : nat) : bytes := match n with O => "" | S n => "0" +:+ zeros n end.
(** [%0wd]. *)
Definition zero_padded (w : nat) (n : Z) : bytes := let s := dec n in zeros (w - String.length s) +:+ s.
(** CPython's [timedelta.__str__], for durations that are not negative. *)
Definition timedelta_text (us : Z) : bytes :=
  let days := us / (86400 * 10 ^ 6) in
  let seconds := us mod (86400 * 10 ^ 6) / 10 ^ 6 in
  let microseconds := us mod 10 ^ 6 in
  (if days =? 0 then "" else dec days +:+ (if days =? 1 then " day, " else " days, ")) +:+
  dec (seconds / 60 / 60) +:+ ":" +:+ zero_padded 2 (seconds / 60 mod 60) +:+ ":" +:+ zero_padded 2 (seconds mod 60) +:+
  (if microseconds =? 0 then "" else "." +:+ zero_padded 6 microseconds).
(** scoped_logger.py:7-33: what a block under a [ScopedLogger] logs and how it ends;
    [start] and [stop] are [time.perf_counter_ns()]. *)
Definition scoped {A} (message : bytes) (start stop : Z) (body : res A) : list bytes * res A :=
  (["beginning " +:+ message; "completed " +:+ message +:+ " in " +:+ timedelta_text (offset (stop - start))], body).
(** decorators.py:9-20 [log_function]; [place] is [get_caller_location]. *)
Definition log_function {A B} (name place : bytes) (f : A → res B) (start stop : Z) (a : A) : list bytes * res B :=
  scoped ("execute " +:+ name +:+ " at " +:+ place) start stop (f a).
