(** * Addresses (scaled/utility/zmq_config.py) *)

From Verif.Model Require Import Base.
From Coq Require Import Ascii DecimalString DecimalZ.

(** zmq_config.py:6-13. *)
Inductive zmq_type : Type := Inproc | Ipc | Tcp.
Definition zmq_value (t : zmq_type) : string :=
  match t with Inproc => "inproc" | Ipc => "ipc" | Tcp => "tcp" end.

(** zmq_config.py:16-20; types of the fields are checked by Coq, so only the
    port/type agreement of [__post_init__] (22-37) remains.
    Python strings are modelled as byte strings. *)
Record zmq_config := ZMQConfig { zc_type : zmq_type; zc_host : string; zc_port : option Z }.

Definition make_config (t : zmq_type) (host : string) (port : option Z) : res zmq_config :=
  match port, t with
  | None, Tcp => Raise ValueError
  | Some _, (Inproc | Ipc) => Raise ValueError
  | _, _ => Ok (ZMQConfig t host port)
  end.

(** [str(int)]. *)
Definition print_int (z : Z) : string := NilZero.string_of_int (Z.to_int z).

(** zmq_config.py:39-46 [to_address]; [f"{None}"] is "None". *)
Definition to_address (c : zmq_config) : string :=
  match zc_type c with
  | Tcp => "tcp://" +:+ zc_host c +:+ ":" +:+ match zc_port c with Some p => print_int p | None => "None" end
  | t => zmq_value t +:+ "://" +:+ zc_host c
  end.

(** [s.split(sep, 1)] when [sep] occurs: text before and after its first occurrence. *)
Fixpoint split_at (sep s : string) : option (string * string) :=
  if String.prefix sep s then Some ("", String.substring (String.length sep) (String.length s - String.length sep) s)
  else match s with
       | EmptyString => None
       | String c s' => match split_at sep s' with
                        | Some (a, b) => Some (String c a, b)
                        | None => None
                        end
       end.

(** Python [int(text)] on ASCII text: surrounding blanks, one sign, digits with
    single underscores between them. *)
Definition is_blank (c : Ascii.ascii) : bool :=
  let n := Ascii.N_of_ascii c in
  ((n =? 32) || ((9 <=? n) && (n <=? 13)) || ((28 <=? n) && (n <=? 31)))%N.
Definition is_digit (c : Ascii.ascii) : bool :=
  let n := Ascii.N_of_ascii c in ((48 <=? n) && (n <=? 57))%N.

Fixpoint strip_left (s : string) : string :=
  match s with String c s' => if is_blank c then strip_left s' else s | _ => s end.
Fixpoint strip_right (s : string) : string :=
  match s with
  | EmptyString => EmptyString
  | String c s' => match strip_right s' with
                   | EmptyString => if is_blank c then EmptyString else String c EmptyString
                   | t => String c t
                   end
  end.

(** Remove underscores, each of which must stand between two digits. *)
Fixpoint no_underscores (after_digit : bool) (s : string) : option string :=
  match s with
  | EmptyString => Some EmptyString
  | String c s' =>
      if Ascii.eqb c "_"%char then
        match s' with
        | String d _ => if after_digit && is_digit d then no_underscores false s' else None
        | EmptyString => None
        end
      else String c <$> no_underscores (is_digit c) s'
  end.

Definition py_int (s : string) : option Z :=
  let s := strip_right (strip_left s) in
  let body := match s with
              | String "+"%char (String "-"%char _) => None
              | String "+"%char s' => Some s'
              | _ => Some s
              end in
  match body with
  | None => None
  | Some b => match no_underscores false b with
              | None => None
              | Some d => Z.of_int <$> NilZero.int_of_string d
              end
  end.

Definition has_colon (s : string) : bool := match split_at ":" s with Some _ => true | None => false end.

(** zmq_config.py:48-68 [from_string]. *)
Definition from_string (s : string) : res zmq_config :=
  match split_at "://" s with
  | None => Raise ValueError
  | Some (ty, rest) =>
      if String.eqb ty "inproc" then make_config Inproc rest None
      else if String.eqb ty "ipc" then make_config Ipc rest None
      else if String.eqb ty "tcp" then
        match split_at ":" rest with
        | None => Raise ValueError                     (* not enough values to unpack *)
        | Some (host, port) =>
            if has_colon port then Raise ValueError    (* too many values to unpack *)
            else match py_int port with
                 | None => Raise ValueError
                 | Some p => make_config Tcp host (Some p)
                 end
        end
      else Raise ValueError
  end.

Global Instance zmq_type_eq_dec : EqDecision zmq_type. Proof. solve_decision. Defined.
Global Instance zmq_config_eq_dec : EqDecision zmq_config. Proof. solve_decision. Defined.
