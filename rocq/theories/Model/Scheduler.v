(** * The scheduler: its managers, function by function, and its event loop
    (scaled/scheduler/ *.py) *)

From Verif.Model Require Import Base OneToManyDict Allocator Message Sorter.
From Verif.Model Require Export SchedulerState.

(** ** Function manager (function_manager.py) *)

(** function_manager.py:60-61 [has_function]. *)
Definition fm_has_function (f : bytes) : M bool := gets (λ s, bool_decide (is_Some (s_funcs s !! f))).

(** function_manager.py:63-64 [get_function_name]. *)
Definition fm_get_name (f : bytes) : M bytes :=
  let* o := gets (λ s, s_funcs s !! f) in
  let* i := lift (from_option_exn KeyError o) in ret (fi_name i).

(** function_manager.py:66-68 [on_task_use_function]. *)
Definition fm_use (t f : bytes) : M unit :=
  let* o := gets (λ s, s_funcs s !! f) in
  let* i := lift (from_option_exn KeyError o) in
  let* now := gets s_now in
  do* modify (set_funcs (<[f := FuncInfo (fi_name i) (fi_content i) now]>)) in
  let* d := gets s_ftasks in
  let* d := lift (otm_add d f t) in
  modify (set_ftasks (λ _, d)).

(** function_manager.py:70-71 [on_task_done_function]. *)
Definition fm_done (t : bytes) : M unit :=
  let* d := gets s_ftasks in
  let* p := lift (otm_remove_value d t) in
  modify (set_ftasks (λ _, p.1)).

(** function_manager.py:147-148 [__send_function_response]. *)
Definition fm_respond (client f : bytes) (r : function_response_type) : M unit :=
  send client (MFunctionResponse r f "" "").

(** function_manager.py:112-117 [__on_function_check]. *)
Definition fm_check (client f : bytes) : M unit :=
  let* b := fm_has_function f in
  if b : bool then fm_respond client f FnOK else fm_respond client f FnNotExists.

(** function_manager.py:119-131 [__on_function_add].  The log line formats
    [len(function)], which [format_bytes] cannot print from 2^50 on (C63): not modelled. *)
Definition fm_add (client f name content : bytes) : M unit :=
  let* o := gets (λ s, s_funcs s !! f) in
  let* now := gets s_now in
  match o with
  | Some i =>
      do* modify (set_funcs (<[f := FuncInfo (fi_name i) (fi_content i) now]>)) in
      fm_respond client f FnDuplicated
  | None =>
      do* modify (set_funcs (<[f := FuncInfo name content now]>)) in
      fm_respond client f FnOK
  end.

(** function_manager.py:99-110 [__on_function_request]. *)
Definition fm_request (source f : bytes) : M unit :=
  let* o := gets (λ s, s_funcs s !! f) in
  match o with
  | None => send source (MFunctionResponse FnNotExists f "" "")
  | Some i => send source (MFunctionResponse FnOK f (fi_name i) (fi_content i))
  end.

(** function_manager.py:133-145 [__on_function_scheduler_delete]. *)
Definition fm_delete (client f : bytes) : M unit :=
  let* b := fm_has_function f in
  if negb b then fm_respond client f FnNotExists
  else
    let* d := gets s_ftasks in
    let* ts := lift (otm_get_values d f) in
    if (0 <? Z.of_nat (size ts)) then fm_respond client f FnStillHaveTask
    else
      do* modify (set_funcs (delete f)) in
      let* p := lift (otm_remove_key d f) in
      do* modify (set_ftasks (λ _, p.1)) in
      fm_respond client f FnStillHaveTask.

(** function_manager.py:41-58 [on_function]. *)
Definition fm_on_function (source : bytes) (ty : function_request_type) (f name content : bytes) : M unit :=
  match ty with
  | FnCheck => fm_check source f
  | FnAdd => fm_add source f name content
  | FnRequest => fm_request source f
  | FnDelete => fm_delete source f
  end.

(** worker_manager.py:98-100 [on_delete_function]. *)
Definition wm_delete_function (f : bytes) : M unit :=
  let* ws := gets (λ s, elements (al_worker_ids (s_alloc s))) in
  let* ws := in_some_order ws in
  foreach ws (λ w, send w (MFunctionRequest FnDelete f "" "")).

(** function_manager.py:73-89 [routine]. *)
Definition fm_expired (s : sched) (f : bytes) (i : func_info) : bool :=
  (c_retention (s_cfg s) <? s_now s - fi_alive i) && negb (otm_has_key (s_ftasks s) f).
Definition fm_routine : M unit :=
  let* dead := gets (λ s, (filter (λ p, fm_expired s p.1 p.2 = true) (map_to_list (s_funcs s))).*1) in
  let* dead := in_some_order dead in
  foreach dead (λ f,
    do* modify (set_funcs (delete f)) in
    wm_delete_function f).

(** ** Client manager (client_manager.py:21-25) *)
Definition cm_new (client t : bytes) : M unit :=
  let* d := gets s_clients in
  let* d := lift (otm_add d client t) in
  modify (set_clients (λ _, d)).
Definition cm_done (t : bytes) : M bytes :=
  let* d := gets s_clients in
  let* p := lift (otm_remove_value d t) in
  do* modify (set_clients (λ _, p.1)) in
  ret p.2.

(** ** Worker manager (worker_manager.py), except routines that need the task manager *)

(** worker_manager.py:132-133. *)
Definition wm_has_available : M bool :=
  let* a := gets s_alloc in
  let* p := lift (al_has_available a) in
  do* modify (set_alloc (λ _, p.1)) in
  ret p.2.

(** worker_manager.py:61-67 [on_task_cancel]. *)
Definition wm_cancel (t : bytes) : M unit :=
  let* o := gets (λ s, al_get_assigned (s_alloc s) t) in
  match o with
  | None => ret tt
  | Some w => send w (MTaskCancel t)
  end.

(** ** Task manager (task_manager.py) *)

(** task_manager.py:150-152 [__send_monitor]. *)
Definition tm_monitor (t : bytes) (st : task_status) : M unit :=
  let* o := gets (λ s, s_tasks s !! t) in
  let* task := lift (from_option_exn KeyError o) in
  let* name := fm_get_name (task_function task) in
  send_monitor (MTaskState t name st).

(** [IndexedQueue.put] and [.remove] (async_indexed_queue.py:123-143). *)
Definition tm_put (t : bytes) : M unit :=
  let* q := gets s_unassigned in
  if bool_decide (t ∈ q) then throw KeyError else modify (set_unassigned (λ q, q ++ [t])).
Definition without (t : bytes) (q : list bytes) : list bytes := List.filter (λ x, negb (String.eqb x t)) q.

(** task_manager.py:85-103 [on_task_new]. *)
Definition tm_new (client : bytes) (task : task) : M unit :=
  let t := task_id task in
  let* known := fm_has_function (task_function task) in
  if negb known then send client (MTaskEcho t FunctionNotExists)
  else
    let* available := wm_has_available in
    let* limit := gets (λ s, c_max_waiting (s_cfg s)) in
    let* waiting := gets (λ s, Z.of_nat (length (s_unassigned s))) in
    if negb available && ((0 <=? limit) && (limit <=? waiting)) then send client (MTaskEcho t NoWorker)
    else
      do* send client (MTaskEcho t SubmitOK) in
      do* fm_use t (task_function task) in
      do* cm_new client t in
      do* modify (set_tasks (<[t := task]>)) in
      do* tm_put t in
      tm_monitor t Inactive.

(** task_manager.py:105-110 [on_task_reroute]. *)
Definition tm_reroute (t : bytes) : M unit :=
  let* d := gets s_clients in
  do* lift (otm_get_key d t) in
  let* running := gets s_running in
  if negb (bool_decide (t ∈ running)) then throw KeyError
  else
    do* modify (set_running (λ r, r ∖ {[t]})) in
    do* tm_put t in
    tm_monitor t Inactive.

(** task_manager.py:125-132. *)
Definition tm_count (st : task_status) : M unit :=
  match st with
  | Success => modify (set_nsuccess (Z.add 1))
  | Failed => modify (set_nfailed (Z.add 1))
  | Canceled => modify (set_ncanceled (Z.add 1))
  | NotFound => modify (set_nnotfound (Z.add 1))
  | _ => ret tt
  end.

(** task_manager.py:134-143: everything [on_task_done] does before asking the graph
    manager; returns the client. *)
Definition tm_forget (r : result) : M bytes :=
  let t := r_id r in
  do* tm_count (r_status r) in
  let* q := gets s_unassigned in
  do* (if bool_decide (t ∈ q) then modify (set_unassigned (without t))
       else modify (set_running (λ ru, ru ∖ {[t]}))) in
  do* tm_monitor t (r_status r) in
  let* o := gets (λ s, s_tasks s !! t) in
  do* lift (from_option_exn KeyError o) in
  do* modify (set_tasks (delete t)) in
  do* fm_done t in
  cm_done t.

(** task_manager.py:112-122 [on_task_cancel]; [done] is [on_task_done]. *)
Definition tm_cancel (done : result → M unit) (t : bytes) : M unit :=
  let* q := gets s_unassigned in
  let* running := gets s_running in
  if bool_decide (t ∈ q) then done (Result t Canceled 0 "")
  else if negb (bool_decide (t ∈ running)) then ret tt
  else
    do* wm_cancel t in
    tm_monitor t Canceling.

(** ** Graph manager (graph_manager.py) *)

(** [self._graph_task_id_to_graph[g]]. *)
Definition gm_graph (g : bytes) : M graph :=
  let* o := gets (λ s, s_graphs s !! g) in lift (from_option_exn KeyError o).
Definition gm_store (g : bytes) (i : graph) : M unit := modify (set_graphs (<[g := i]>)).

Definition set_nodes (n : gmap bytes node_info) (i : graph) : graph :=
  Graph (g_targets i) (g_ids i) (g_sorter i) n (g_deps i) (g_client i).
Definition set_sorter (s : sorter) (i : graph) : graph :=
  Graph (g_targets i) (g_ids i) s (g_nodes i) (g_deps i) (g_client i).
Definition set_deps (d : kvs bytes bytes) (i : graph) : graph :=
  Graph (g_targets i) (g_ids i) (g_sorter i) (g_nodes i) d (g_client i).

(** graph_manager.py:201-219 [__clean_graph]; [cancel] is the task manager's
    [on_task_cancel].  The graph has left the dictionary, so its nodes are local. *)
Fixpoint gm_clean_nodes (cancel : bytes → M unit) (ids : list bytes) (nodes : gmap bytes node_info) : M unit :=
  match ids with
  | [] => ret tt
  | t :: ids =>
      match nodes !! t with
      | None => gm_clean_nodes cancel ids nodes
      | Some n =>
          do* match ni_state n with
              | NInactive => fm_done t
              | NRunning => cancel t
              | _ => ret tt
              end in
          do* modify (set_t2g (delete t)) in
          gm_clean_nodes cancel ids (delete t nodes)
      end
  end.
Definition gm_clean (cancel : bytes → M unit) (g : bytes) : M graph :=
  do* cm_done g in
  let* i := gm_graph g in
  do* modify (set_graphs (delete g)) in
  let* ids := in_some_order (elements (g_ids i)) in
  do* gm_clean_nodes cancel ids (g_nodes i) in
  ret i.

(** graph_manager.py:221-236 [__mark_node_done]. *)
Definition gm_mark (g : bytes) (r : result) : M unit :=
  let* i := gm_graph g in
  let* n := lift (from_option_exn KeyError (g_nodes i !! r_id r)) in
  let* st := match r_status r with
             | Success => ret NSuccess
             | Canceled => ret NCanceled
             | Failed => ret NFailed
             | _ => throw ValueError
             end in
  let* so := lift (so_done (g_sorter i) (r_id r)) in
  gm_store g (set_sorter so (set_nodes (<[r_id r := NodeInfo st (ni_task n) (Some (r_payload r))]> (g_nodes i)) i)).

(** graph_manager.py:238-240 [__get_target_results]; a missing result would be [None],
    which cannot be encoded. *)
Fixpoint gm_results (i : graph) (ts : list bytes) : res (list bytes) :=
  match ts with
  | [] => Ok []
  | t :: ts =>
      n ← from_option_exn KeyError (g_nodes i !! t);
      r ← from_option_exn TypeError (ni_result n);
      rs ← gm_results i ts;
      Ok (r :: rs)
  end.

(** graph_manager.py:252-264 [__get_task_result]. *)
Definition gm_task_result (g t a : bytes) : M bytes :=
  let* i := gm_graph g in
  let* d := lift (kvs_remove_value (g_deps i) a t) in
  let i := set_deps d i in
  do* gm_store g i in
  let* n := lift (from_option_exn KeyError (g_nodes i !! a)) in
  let* r := lift (from_option_exn TypeError (ni_result n)) in
  if kvs_contains d a then ret r
  else if bool_decide (a ∈ g_targets i) then ret r
  else
    let* t2g := gets s_t2g in
    do* lift (from_option_exn KeyError (t2g !! a)) in
    do* modify (set_t2g (delete a)) in
    do* gm_store g (set_nodes (delete a (g_nodes i)) i) in
    ret r.

(** graph_manager.py:242-250 [__get_argument] over all arguments of a task. *)
Fixpoint gm_arguments (g t : bytes) (args : list argument) : M (list argument) :=
  match args with
  | [] => ret []
  | ArgData d :: args => let* args := gm_arguments g t args in ret (ArgData d :: args)
  | ArgTask a :: args =>
      let* r := gm_task_result g t a in
      let* args := gm_arguments g t args in
      ret (ArgData r :: args)
  end.

(** graph_manager.py:188-194: one ready node.  The code updates the Task object in
    place; the task manager stores that same object. *)
Definition gm_start (g t : bytes) : M unit :=
  let* i := gm_graph g in
  let* n := lift (from_option_exn KeyError (g_nodes i !! t)) in
  let* args := gm_arguments g t (task_args (ni_task n)) in
  let task := Task (task_id (ni_task n)) (task_function (ni_task n)) args in
  let* i := gm_graph g in
  do* gm_store g (set_nodes (<[t := NodeInfo NRunning task (ni_result n)]> (g_nodes i)) i) in
  tm_new (g_client i) task.

(** graph_manager.py:178-199 [__check_one_graph], [__finish_one_graph]. *)
Definition gm_check (cancel : bytes → M unit) (g : bytes) : M unit :=
  let* i := gm_graph g in
  if negb (so_is_active (g_sorter i)) then
    let* rs := lift (gm_results i (g_targets i)) in
    let* i := gm_clean cancel g in
    send (g_client i) (MGraphTaskResult g Success rs)
  else
    let '(so, ready) := so_get_ready (g_sorter i) in
    do* gm_store g (set_sorter so i) in
    foreach ready (gm_start g).

(** graph_manager.py:112-126 [on_task_done]; true when the task was a graph node.
    The assertion of line 123 cannot fail: [gm_mark] already raised. *)
Definition gm_done (cancel : bytes → M unit) (r : result) : M bool :=
  let* o := gets (λ s, s_t2g s !! r_id r) in
  match o with
  | None => ret false
  | Some g =>
      do* gm_mark g r in
      match r_status r with
      | Success => do* gm_check cancel g in ret true
      | st =>
          let* i := gm_clean cancel g in
          do* send (g_client i) (MGraphTaskResult g st [r_payload r]) in
          ret true
      end
  end.

(** task_manager.py:124-148 [on_task_done].  The recursion through the graph manager
    (done → clean graph → cancel node → done) removes a graph at each level, so one
    more level than there are graphs is never exceeded ([OutOfFuel] is unreachable). *)
Fixpoint tm_done_fuel (fuel : nat) (r : result) : M unit :=
  match fuel with
  | O => throw OutOfFuel
  | S fuel =>
      let* client := tm_forget r in
      let* is_node := gm_done (tm_cancel (tm_done_fuel fuel)) r in
      if is_node : bool then ret tt else send client (MResult r)
  end.
Definition tm_done (r : result) : M unit :=
  let* n := gets (λ s, size (s_graphs s)) in
  tm_done_fuel (S n) r.
Definition tm_cancel_any (t : bytes) : M unit := tm_cancel tm_done t.

(** graph_manager.py:145-168: the loop over the nodes of a new graph.  Returns the
    node table, the dependents table and the dictionary for the sorter. *)
Definition task_deps (t : task) : gset bytes :=
  list_to_set (omap (λ a, match a with ArgTask x => Some x | ArgData _ => None end) (task_args t)).
Fixpoint gm_nodes (g : bytes) (targets : list bytes) (ts : list task)
    (nodes : gmap bytes node_info) (deps : kvs bytes bytes) (gr : list (bytes * list bytes))
  : M (gmap bytes node_info * kvs bytes bytes * list (bytes * list bytes)) :=
  match ts with
  | [] => ret (nodes, deps, gr)
  | t :: ts =>
      do* fm_use (task_id t) (task_function t) in
      do* modify (set_t2g (<[task_id t := g]>)) in
      let* required := in_some_order (elements (task_deps t)) in
      do* send_monitor (MGraphTaskState g (task_id t)
             (if bool_decide (task_id t ∈ targets) then NodeTarget else NodeNormal) (task_deps t)) in
      gm_nodes g targets ts
        (<[task_id t := NodeInfo NInactive t None]> nodes)
        (foldl (λ d a, kvs_add d a (task_id t)) deps required)
        (dict_put (task_id t) required gr)
  end.

(** graph_manager.py:135-176 [__add_new_graph]. *)
Definition gm_add (client : bytes) (gt : graph_task) : M unit :=
  let g := gt_id gt in
  do* foreach (gt_functions gt) (λ p, fm_on_function client FnAdd p.1 p.2.1 p.2.2) in
  do* cm_new client g in
  let* p := gm_nodes g (gt_targets gt) (gt_graph gt) ∅ ∅ [] in
  let '(nodes, deps, gr) := p in
  let* so := lift (so_prepare gr (so_of_graph gr)) in
  do* gm_store g (Graph (gt_targets gt) (list_to_set (task_id <$> gt_graph gt)) so nodes deps client) in
  gm_check tm_cancel_any g.

(** graph_manager.py:128-130 [routine]: waits while the queue is empty. *)
Definition gm_routine : M unit :=
  let* q := gets s_gqueue in
  match q with
  | [] => ret tt
  | (client, gt) :: rest =>
      do* modify (set_gqueue (λ _, rest)) in
      gm_add client gt
  end.

(** ** Dispatch (task_manager.py:63-71 with worker_manager.py:52-59) *)

(** The part after the task left the queue; suspended while there is no worker. *)
Definition tm_match (task : task) : M unit :=
  let t := task_id task in
  let* a := gets s_alloc in
  let* p := lift (al_assign a t) in
  do* modify (set_alloc (λ _, p.1)) in
  match p.2 with
  | Waits => modify (set_limbo (λ _, Some task))
  | AllFull => do* modify (set_limbo (λ _, None)) in tm_put t
  | Assigned w =>
      do* modify (set_limbo (λ _, None)) in
      do* send w (MTask task) in
      do* modify (set_running (λ r, {[t]} ∪ r)) in
      tm_monitor t Running
  end.

Definition tm_routine : M unit :=
  let* limbo := gets s_limbo in
  match limbo with
  | Some task => tm_match task
  | None =>
      let* q := gets s_unassigned in
      match q with
      | [] => ret tt
      | t :: q =>
          do* modify (set_unassigned (λ _, q)) in
          let* o := gets (λ s, s_tasks s !! t) in
          let* task := lift (from_option_exn KeyError o) in
          tm_match task
      end
  end.

(** ** Worker manager, the rest *)

(** worker_manager.py:69-78 [on_task_done]. *)
Definition wm_done (r : result) : M unit :=
  let* a := gets s_alloc in
  let* p := lift (al_remove_task a (r_id r)) in
  do* modify (set_alloc (λ _, p.1)) in
  match p.2 with
  | None => ret tt
  | Some _ => tm_done r
  end.

(** worker_manager.py:80-89 [on_balance_response]: first take every task back, then
    requeue those that were held. *)
Fixpoint wm_take_back (ids : list bytes) : M (list bytes) :=
  match ids with
  | [] => ret []
  | t :: ids =>
      let* a := gets s_alloc in
      let* p := lift (al_remove_task a t) in
      do* modify (set_alloc (λ _, p.1)) in
      let* rest := wm_take_back ids in
      ret (match p.2 with None => rest | Some _ => t :: rest end)
  end.
Definition wm_balance_response (ids : list bytes) : M unit :=
  let* ids := wm_take_back ids in
  foreach ids tm_reroute.

(** worker_manager.py:91-96 [on_heartbeat]. *)
Definition wm_heartbeat (w : bytes) (h : heartbeat) : M unit :=
  let* a := gets s_alloc in
  let '(a, new) := al_add_worker a w in
  do* modify (set_alloc (λ _, a)) in
  do* when new (emit (LConnected w)) in
  let* now := gets s_now in
  do* modify (set_alive (<[w := (now, h)]>)) in
  send w MHeartbeatEcho.

(** worker_manager.py:171-185 [__disconnect_worker] (and 167-169). *)
Definition wm_drop (w : bytes) : M bool :=
  let* o := gets (λ s, s_alive s !! w) in
  match o with
  | None => ret false
  | Some _ =>
      do* emit (LDisconnected w) in
      do* modify (set_alive (delete w)) in
      let* a := gets s_alloc in
      let* p := lift (al_remove_worker a w) in
      do* modify (set_alloc (λ _, p.1)) in
      let* ids := in_some_order (elements p.2) in
      do* foreach ids tm_reroute in
      ret true
  end.

(** worker_manager.py:102-106 [on_disconnect]. *)
Definition wm_disconnect (source w : bytes) : M unit :=
  let* b := wm_drop w in
  when b (send source (MDisconnectResponse w)).

(** worker_manager.py:135-155 [__balance_request]. *)
Definition wm_balance : M unit :=
  let* cfg := gets s_cfg in
  if c_lb_seconds cfg <=? 0 then ret tt
  else
    let* advice := gets (λ s, al_balance (s_alloc s)) in
    let* last := gets s_last_advice in
    if negb (bool_decide (last = Some advice)) then
      do* modify (set_last_advice (λ _, Some advice)) in
      modify (set_same (λ _, 1))
    else
      do* modify (set_same (Z.add 1)) in
      let* n := gets s_same in
      if negb (n =? c_lb_times cfg) then ret tt
      else if bool_decide (advice = ∅) then ret tt
      else
        let* items := in_some_order (map_to_list advice) in
        foreach items (λ p, send p.1 (MBalanceRequest p.2)).

(** worker_manager.py:157-165 [__clean_workers]. *)
Definition wm_silent (s : sched) (p : bytes * (Z * heartbeat)) : bool :=
  c_timeout (s_cfg s) <? s_now s - p.2.1.
Definition wm_clean : M unit :=
  let* dead := gets (λ s, (filter (λ p, wm_silent s p = true) (map_to_list (s_alive s))).*1) in
  let* dead := in_some_order dead in
  foreach dead (λ w, do* wm_drop w in ret tt).

(** worker_manager.py:108-110 [routine]. *)
Definition wm_routine : M unit := do* wm_balance in wm_clean.

(** ** Status report (status_reporter.py:23-26 and the [statistics] methods) *)

(** [bytes.decode()]: well-formed UTF-8 as in RFC 3629. *)
Definition utf8_cont (z : Z) : bool := (128 <=? z) && (z <=? 191).
Fixpoint utf8 (s : bytes) : bool :=
  match s with
  | EmptyString => true
  | String a s1 =>
      let x := of_byte a in
      if x <=? 127 then utf8 s1
      else match s1 with
      | EmptyString => false
      | String b s2 =>
          let y := of_byte b in
          if (194 <=? x) && (x <=? 223) then utf8_cont y && utf8 s2
          else match s2 with
          | EmptyString => false
          | String c s3 =>
              let z := of_byte c in
              if (224 <=? x) && (x <=? 239) then
                utf8_cont y && utf8_cont z && negb ((x =? 224) && (y <? 160)) && negb ((x =? 237) && (159 <? y)) && utf8 s3
              else match s3 with
              | EmptyString => false
              | String d s4 =>
                  (240 <=? x) && (x <=? 244) && utf8_cont y && utf8_cont z && utf8_cont (of_byte d)
                  && negb ((x =? 240) && (y <? 144)) && negb ((x =? 244) && (143 <? y)) && utf8 s4
              end
          end
      end
  end.

Definition decode (s : bytes) : res bytes := if utf8 s then Ok s else Raise UnicodeError.

(** client_manager.py:30-33. *)
Fixpoint report_clients (l : list (bytes * gset bytes)) (acc : gmap bytes Z) : res (gmap bytes Z) :=
  match l with
  | [] => Ok acc
  | (c, ts) :: l => n ← decode c; report_clients l (<[n := Z.of_nat (size ts)]> acc)
  end.
(** function_manager.py:91-97. *)
Fixpoint report_functions (fs : gmap bytes func_info) (l : list (bytes * gset bytes)) (acc : gmap bytes Z)
  : res (gmap bytes Z) :=
  match l with
  | [] => Ok acc
  | (f, ts) :: l =>
      i ← from_option_exn KeyError (fs !! f);
      n ← decode (fi_name i);
      report_functions fs l (<[n := Z.of_nat (size ts)]> acc)
  end.
(** worker_manager.py:112-130. *)
Fixpoint report_workers (now : Z) (stats : gmap bytes (Z * Z)) (l : list (bytes * (Z * heartbeat)))
    (acc : gmap bytes worker_row) : res (gmap bytes worker_row) :=
  match l with
  | [] => Ok acc
  | (w, (last, h)) :: l =>
      n ← decode w;
      p ← from_option_exn KeyError (stats !! w);
      report_workers now stats l (<[n := WorkerRow h p.1 p.2 (now - last)]> acc)
  end.

Definition st_routine : M unit :=
  let* s := gets (λ s, s) in
  let* cl := in_some_order (map_to_list (o_k2v (s_clients s))) in
  let* clients := lift (report_clients cl ∅) in
  let* fl := in_some_order (map_to_list (o_k2v (s_ftasks s))) in
  let* functions := lift (report_functions (s_funcs s) fl ∅) in
  let* wl := in_some_order (map_to_list (s_alive s)) in
  let* workers := lift (report_workers (s_now s) (al_statistics (s_alloc s)) wl ∅) in
  emit (LReport (Report clients functions (Z.of_nat (length (s_unassigned s))) (Z.of_nat (size (s_running s)))
                        (s_nsuccess s) (s_nfailed s) (s_ncanceled s) (s_nnotfound s) workers)).

(** ** Message dispatch (main.py:92-129): other messages are logged and ignored *)
Definition on_receive (source : bytes) (m : message) : M unit :=
  match m with
  | MHeartbeat h => wm_heartbeat source h
  | MBalanceResponse ids => wm_balance_response ids
  | MGraphTask id fs ts g => modify (set_gqueue (λ q, q ++ [(source, GraphTask id fs ts g)]))
  | MGraphTaskCancel id => do* gm_clean tm_cancel_any id in ret tt
  | MTask t => tm_new source t
  | MTaskCancel t => tm_cancel_any t
  | MTaskResult id st d p => wm_done (Result id st d p)
  | MFunctionRequest ty f n c => fm_on_function source ty f n c
  | MDisconnectRequest w => wm_disconnect source w
  | _ => ret tt
  end.

Definition handle (e : event) : M unit :=
  match e with
  | ERecv source m => on_receive source m
  | EGraph => gm_routine
  | EDispatch => tm_routine
  | EFunctions => fm_routine
  | EWorkers => wm_routine
  | EStatus => st_routine
  end.

(** ** The event loop (main.py:131-142, event_loop.py:34-45).
    Each round of each loop runs without interruption, because nothing in it suspends
    except [Queue.get] on an empty queue (asyncio's [put] on an unbounded queue and
    zmq's [send_multipart] without high-water mark return at once).  The order of
    rounds is arbitrary.  An exception in any loop ends the process.
    SIMPLIFICATIONS: the clock is constant within a round; a round of another loop
    that asyncio may still run while the exception travels out of [gather] is not
    modelled. *)
Record round := Round { rd_now : Z; rd_codes : list (list nat); rd_event : event }.

Definition step (s : sched) (r : round) : sched :=
  match s_dead s with
  | Some _ => s
  | None =>
      let s := set_log (λ l, l ++ [LIn (rd_now r) (rd_event r)]) (set_now (λ _, rd_now r) (set_codes (λ _, rd_codes r) s)) in
      match handle (rd_event r) s with
      | (s', Ok _) => s'
      | (s', Raise e) => set_dead (λ _, Some e) (set_log (λ l, l ++ [LCrash e]) s')
      end
  end.

Definition start (c : config) : sched :=
  Sched c 0 [] [] None ∅ otm_empty otm_empty ∅ [] ∅ 0 0 0 0 None ∅ (al_init (c_queue_size c)) None 0 [] ∅ ∅.

Definition run_from (s : sched) (rs : list round) : sched := foldl step s rs.
Definition run (c : config) (rs : list round) : sched := run_from (start c) rs.

Global Instance report_eq_dec : EqDecision report.
Proof. assert (EqDecision worker_row) by solve_decision. solve_decision. Defined.
Global Instance event_eq_dec : EqDecision event. Proof. solve_decision. Defined.
Global Instance entry_eq_dec : EqDecision entry. Proof. solve_decision. Defined.
