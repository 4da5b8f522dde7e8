(** * The client (client.py): what the calls of a user turn into

    Keyword arguments, [map], and the graphs of [get].  Values are their serialized
    bytes; a function is its name and its serialized content. *)

From Verif.Model Require Import Base Message Sorter Client.

(** ** Keyword arguments *)

(** inspect.Parameter: kind, name and default ([None]: Parameter.empty). *)
Inductive kind : Type := PositionalOnly | PositionalOrKeyword | VarPositional | KeywordOnly | VarKeyword.
#[global] Instance kind_eq_dec : EqDecision kind. Proof. solve_decision. Defined.
Record param := Param { p_name : bytes; p_kind : kind; p_default : option bytes }.
Definition by_position (p : param) : bool := match p_kind p with PositionalOnly | PositionalOrKeyword => true | _ => false end.
Definition required (p : param) : bool := match p_default p with None => true | _ => false end.

(** client.py:276-281: the loop over [params[len(args_list) : number_of_required]]. *)
Fixpoint c_take_required (ps : list param) (args : list bytes) (kwargs : gmap bytes bytes) : res (list bytes * gmap bytes bytes) :=
  match ps with
  | [] => Ok (args, kwargs)
  | p :: ps =>
      match kwargs !! p_name p with
      | Some v => c_take_required ps (args ++ [v]) (delete (p_name p) kwargs)
      | None => Raise TypeError
      end
  end.
(** client.py:283-284: the loop over the rest.  A parameter without a default would get
    Parameter.empty; the parameters beyond [number_of_required] have defaults. *)
Fixpoint c_take_optional (ps : list param) (args : list bytes) (kwargs : gmap bytes bytes) : list bytes :=
  match ps with
  | [] => args
  | p :: ps =>
      c_take_optional ps (args ++ [default (default "" (p_default p)) (kwargs !! p_name p)]) (delete (p_name p) kwargs)
  end.
(** client.py:262-286 [__convert_kwargs_to_args].  [take]/[drop] are the slices. *)
Definition c_convert (all_params : list param) (args : list bytes) (kwargs : gmap bytes bytes) : res (list bytes) :=
  let params := List.filter by_position all_params in
  if (length params <=? length args)%nat then Ok args
  else
    let number_of_required := length (List.filter required params) in
    let kwargs := foldl (λ m p, match p_kind p, p_default p with KeywordOnly, Some d => <[p_name p := d]> m | _, _ => m end) kwargs all_params in
    match c_take_required (take (number_of_required - length args) (drop (length args) params)) args kwargs with
    | Raise e => Raise e
    | Ok (args, kwargs) => Ok (c_take_optional (drop (length args) params) args kwargs)
    end.

(** ** map *)

(** What [map] is given: an object that can be iterated over again, or an iterator that
    is used up by the first loop.  [OtherRow]: an item that is no tuple or list. *)
Inductive row : Type := Row (args : list bytes) | OtherRow.
Inductive iterable : Type := Sequence (rows : list row) | OneShot (rows : list row).
Definition items (it : iterable) : list row := match it with Sequence l | OneShot l => l end.
Definition used_up (it : iterable) : iterable := match it with Sequence l => Sequence l | OneShot _ => OneShot [] end.

(** client.py:97-100: the argument lists [submit] is called with.  [submit(fn, *args)]
    has no keyword arguments; [sig] are the parameters of [fn].  The argument lists of
    the calls before a TypeError have been submitted (C57: it comes from a missing
    argument); they are the first component. *)
Fixpoint c_rows (sig : list param) (rows : list row) : list (list bytes) * option exn :=
  match rows with
  | [] => ([], None)
  | OtherRow :: _ => ([], Some TypeError)        (* not reached: checked before *)
  | Row args :: rows =>
      match c_convert sig args ∅ with
      | Raise e => ([], Some e)
      | Ok args => let '(l, e) := c_rows sig rows in (args :: l, e)
      end
  end.
Definition c_map (sig : list param) (it : iterable) : list (list bytes) * option exn :=
  if forallb (λ r, match r with Row _ => true | OtherRow => false end) (items it)
  then c_rows sig (items (used_up it))
  else ([], Some TypeError).
(** The calls of submit, with the ids uuid1 gives them (client.py:79). *)
Definition c_map_calls (f name content : bytes) (ids : list bytes) (argss : list (list bytes)) : list kevent :=
  zip_with (λ t args, KSubmit t f name content args) ids argss.

(** [fut.result()] (client.py:103, :135): blocks ([None]) until the future is resolved. *)
Inductive outcome : Type := Returns (payload : bytes) | Raises (e : fvalue) | RaisesCancelled.
Definition f_result (s : client * list kentry) (k : fkey) : option outcome :=
  match k_state s.1 !! k with
  | Some FCancelled => Some RaisesCancelled
  | Some FFinished =>
      match List.find (λ e, match e with CSet k' _ => bool_decide (k' = k) | _ => false end) s.2 with
      | Some (CSet _ (Value p)) => Some (Returns p)
      | Some (CSet _ v) => Some (Raises v)
      | _ => None
      end
  | _ => None
  end.
(** client.py:102-109: [inl vs] is the returned list, [inr o] the raised exception. *)
Fixpoint f_collect (s : client * list kentry) (ks : list fkey) : option (list bytes + outcome) :=
  match ks with
  | [] => Some (inl [])
  | k :: ks =>
      match f_result s k with
      | None => None
      | Some (Returns p) =>
          match f_collect s ks with Some (inl vs) => Some (inl (p :: vs)) | r => r end
      | Some o => Some (inr o)
      end
  end.

(** ** Graphs *)

(** The values of the dictionary given to [get]: a tuple that starts with a callable is
    a call, everything else is data.  An argument of a call is a string or something
    else, which may be hashable. *)
Inductive garg : Type := AName (n : bytes) | AOther (hashable : bool).
Inductive gnode : Type := GData (payload : bytes) | GCall (name content : bytes) (args : list garg).
Notation ugraph := (list (bytes * gnode)).
Notation calls_of := (list (bytes * (bytes * bytes * list garg))).

(** client.py:289-305 [__split_data_and_graph]. *)
Definition c_data (graph : ugraph) : list (bytes * bytes) :=
  omap (λ p, match p.2 with GData d => Some (p.1, d) | _ => None end) graph.
Definition c_calls (graph : ugraph) : calls_of :=
  omap (λ p, match p.2 with GCall n c args => Some (p.1, (n, c, args)) | _ => None end) graph.
Definition has {A} (k : bytes) (d : list (bytes * A)) : bool := existsb (λ p, String.eqb p.1 k) d.
Definition find_key {A} (k : bytes) (d : list (bytes * A)) : option A := snd <$> List.find (λ p, String.eqb p.1 k) d.

(** client.py:307-331 [__check_graph].  The assertion at :320 holds after the split. *)
Fixpoint c_check_args (data : list (bytes * bytes)) (graph : calls_of) (args : list garg) : option exn :=
  match args with
  | [] => None
  | AName a :: args => if negb (has a data) && negb (has a graph) then Some KeyError else c_check_args data graph args
  | AOther hashable :: _ => Some (if hashable then KeyError else TypeError)
  end.
Fixpoint c_check_nodes (data : list (bytes * bytes)) (graph : calls_of) (nodes : calls_of) : option exn :=
  match nodes with
  | [] => None
  | (_, (_, _, args)) :: nodes => match c_check_args data graph args with Some e => Some e | None => c_check_nodes data graph nodes end
  end.
Definition arg_names (args : list garg) : list bytes := omap (λ a, match a with AName n => Some n | _ => None end) args.
Definition c_sorter (graph : calls_of) : list (bytes * list bytes) := (λ p, (p.1, arg_names p.2.2)) <$> graph.
Definition c_check (data : list (bytes * bytes)) (graph : calls_of) (keys : list bytes) : option exn :=
  if forallb (λ k, has k graph) keys then
    match c_check_nodes data graph graph with
    | Some e => Some e
    | None => match so_prepare (c_sorter graph) (so_of_graph (c_sorter graph)) with Ok _ => None | Raise e => Some e end
    end
  else Some KeyError.

(** A dictionary's items after [d[k] = v]. *)
Definition put_key {A} (k : bytes) (v : A) (d : list (bytes * A)) : list (bytes * A) :=
  put_last (λ p, String.eqb p.1 k) (k, v) d.

(** client.py:333-363 [__construct_graph].  [ids] gives the task ids of :336 by node
    name, [digest] is md5 (:258), [g] the graph's id. *)
Definition c_argument (ids : bytes → bytes) (data : list (bytes * bytes)) (graph : calls_of) (a : garg) : res argument :=
  match a with
  | AName n => if has n graph then Ok (ArgTask (ids n)) else match find_key n data with Some d => Ok (ArgData d) | None => Raise AssertionError end
  | AOther hashable => Raise (if hashable then AssertionError else TypeError)
  end.
Fixpoint c_arguments (ids : bytes → bytes) (data : list (bytes * bytes)) (graph : calls_of) (args : list garg) : res (list argument) :=
  match args with
  | [] => Ok []
  | a :: args =>
      match c_argument ids data graph a with
      | Raise e => Raise e
      | Ok x => match c_arguments ids data graph args with Raise e => Raise e | Ok xs => Ok (x :: xs) end
      end
  end.
Fixpoint c_tasks (ids digest : bytes → bytes) (data : list (bytes * bytes)) (graph nodes : calls_of)
    (functions : list (bytes * (bytes * bytes))) : res (list (bytes * (bytes * bytes)) * list task) :=
  match nodes with
  | [] => Ok (functions, [])
  | (n, (name, content, args)) :: nodes =>
      match c_arguments ids data graph args with
      | Raise e => Raise e
      | Ok args =>
          match c_tasks ids digest data graph nodes (put_key (digest content) (name, content) functions) with
          | Raise e => Raise e
          | Ok (functions, tasks) => Ok (functions, Task (ids n) (digest content) args :: tasks)
          end
      end
  end.
Definition c_targets (ids : bytes → bytes) (keys : list bytes) : list bytes :=
  (foldl (λ d k, put_key (ids k) tt d) [] keys).*1.
Definition c_construct (ids digest : bytes → bytes) (g : bytes) (data : list (bytes * bytes)) (graph : calls_of) (keys : list bytes)
  : res (message * list fkey) :=
  match c_tasks ids digest data graph graph [] with
  | Raise e => Raise e
  | Ok (functions, tasks) =>
      let targets := c_targets ids keys in
      Ok (MGraphTask g functions targets tasks, (λ i, FGraph g i) <$> seq 0 (length targets))
  end.

(** client.py:111-134 [get]: the message sent, the registered futures and the
    dictionary [dict(zip(keys, futures))] it returns (or waits for). *)
Definition c_get (ids digest : bytes → bytes) (g : bytes) (graph : ugraph) (keys : list bytes)
  : res (message * list fkey * list (bytes * fkey)) :=
  match c_check (c_data graph) (c_calls graph) keys with
  | Some e => Raise e
  | None =>
      match c_construct ids digest g (c_data graph) (c_calls graph) keys with
      | Raise e => Raise e
      | Ok (m, futures) => Ok (m, futures, foldl (λ d p, put_key p.1 p.2 d) [] (zip keys futures))
      end
  end.
(** client.py:134-142: waiting for the values, in the dictionary's order. *)
Definition c_get_values (s : client * list kentry) (returned : list (bytes * fkey)) : option (list (bytes * bytes) + outcome) :=
  match f_collect s returned.*2 with
  | None => None
  | Some (inl vs) => Some (inl (zip returned.*1 vs))
  | Some (inr o) => Some (inr o)
  end.
