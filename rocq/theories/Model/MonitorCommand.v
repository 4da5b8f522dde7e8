(** * The command line of the monitor (scaled/entry_points/top.py:35-73) *)

From Verif.Model Require Import Base ZMQConfig Startup.

(** top.py:39.  The address (:40) has no [type]: it is any text. *)
Definition monitor_table : list opt := [Opt ["--timeout"] "timeout" KInt].

(** What the monitor does with its socket before the first message: where it connects, and
    for how many milliseconds it waits for a message. *)
Record monitor_up : Type := MonitorUp {
  mu_connects : string;
  mu_waits_ms : Z }.

(** top.py:66-70 [subscribe_status] up to the connection.  SIMPLIFICATION: ZeroMQ accepts
    every number of milliseconds. *)
Definition monitor_connect (address : zmq_config) (timeout : Z) : monitor_up :=
  MonitorUp (to_address address) (timeout * 1000).

(** top.py:35-41 [get_args] and :48-59 [poke] up to the connection.  The address is parsed by
    [poke], not by argparse: a bad one is an exception. *)
Definition monitor_command (args : list string) : parsed (res monitor_up) :=
  match collect monitor_table args no_arguments with
  | Parsed ns =>
    match ns_plain ns with
    | [text] => Parsed (c ← from_string text; Ok (monitor_connect c (int_of ns "timeout" 5)))
    | _ => UsageError
    end
  | UsageError => UsageError
  | Unmodelled => Unmodelled
  end.
