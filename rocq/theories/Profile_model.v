(** Model of the profiler: [pywr/profiler.py] 33-77 and its use in [pywr/_model.pyx] 684-746 (setup), 748-823 (reset).

    The clock ([time.perf_counter]) is an arbitrary function: [clock c k] is the value of its k-th reading if it is made after c calls of hooks;
    the memory counter is not modelled.
    An entry is identified by the call it belongs to, which has the phase and the node or component (the code notes their names and
    classes). *)
From Verif Require Import Base Run_model.
Local Open Scope nat_scope.
Local Open Scope list_scope.

Record entry := Entry { e_call : call; e_time : Q }.

(** What setup and reset do one after the other: [ACall]: a hook; [AMark]: [if profiler is not None: profiler.checkpoint(…)];
    [AStart]: [profiler = Profiler()] or [profiler.reset()]. *)
Inductive action := ACall (e : call) | AMark (e : call) | AStart.

(** Number of calls and of readings so far, the last reading kept ([_last_perf_counter]), the entries. *)
Record profiler := Profiler { p_calls : nat; p_reads : nat; p_last : Q; p_entries : list entry }.

(** profiler.py 49-51. *)
Definition restart (clock : nat -> nat -> Q) (p : profiler) : profiler :=
  Profiler (p_calls p) (S (p_reads p)) (clock (p_calls p) (p_reads p)) (p_entries p).
(** profiler.py 53-71. *)
Definition checkpoint (clock : nat -> nat -> Q) (e : call) (p : profiler) : profiler :=
  restart clock (Profiler (p_calls p) (S (p_reads p)) (p_last p) (p_entries p ++ [Entry e (clock (p_calls p) (p_reads p) - p_last p)])).
Definition called (p : profiler) : profiler := Profiler (S (p_calls p)) (p_reads p) (p_last p) (p_entries p).

(** The actions in turn: calls made, and the profiler afterwards unless a hook raised. *)
Fixpoint perform (raises : call -> bool) (clock : nat -> nat -> Q) (profile : bool) (acts : list action) (p : profiler) : list call * option profiler :=
  match acts with
  | [] => ([], Some p)
  | ACall e :: r => if raises e then ([e], None) else let (t, q) := perform raises clock profile r (called p) in (e :: t, q)
  | AMark e :: r => perform raises clock profile r (if profile then checkpoint clock e p else p)
  | AStart :: r => perform raises clock profile r (if profile then restart clock p else p)
  end.

(** One loop over nodes or components: the hook, then the checkpoint. *)
Definition loop (calls : list call) : list action := flat_map (fun e => [ACall e; AMark e]) calls.

(** _model.pyx 700-734. *)
Definition setup_actions (m : model) : list action :=
  AStart :: loop (map SetupNode (m_nodes m)) ++
  match m_tree m with
  | None => [ACall Cyclic]
  | Some flat => AStart :: loop (map SetupComponent flat) ++ [ACall SetupSolver]
  end.
(** _model.pyx 765-813 without a change of length. *)
Definition reset_actions (m : model) (flat : list nat) : list action :=
  AStart :: loop (map ResetNode (m_visible m)) ++ AStart :: loop (map ResetComponent flat) ++ [ACall ResetSolver].

(** profiler.py 73-77: [set_index] on a frame without columns raises KeyError. *)
Definition to_dataframe (l : list entry) : option (list entry) := match l with [] => None | _ => Some l end.

Inductive outcome := Raises | Returns (entries : option (list entry)).

(** reset(profile=…, profile_dump_filename=…), 748-823: calls made, entries of the profiler returned, rows written to the file. *)
Definition reset (raises : call -> bool) (clock : nat -> nat -> Q) (profile dump : bool) (c k : nat) (m : model) (flat : list nat)
  : list call * outcome * option (list entry) :=
  let (t, q) := perform (raising raises) clock profile (reset_actions m flat) (Profiler c k 0 []) in
  match q with
  | None => (t, Raises, None)
  | Some p =>
      if profile then
        if dump then match to_dataframe (p_entries p) with Some rows => (t, Returns (Some rows), Some rows) | None => (t, Raises, None) end
        else (t, Returns (Some (p_entries p)), None)
      else (t, Returns None, None)
  end.

(** setup(profile=…, profile_dump_filename=…), 684-746: the profiler of reset is another one, its entries are appended. *)
Definition setup (raises : call -> bool) (clock : nat -> nat -> Q) (profile dump : bool) (m : model) : list call * outcome * option (list entry) :=
  let (t, q) := perform (raising raises) clock profile (setup_actions m) (Profiler 0 0 0 []) in
  match q, m_tree m with
  | Some p, Some flat =>
      match reset raises clock profile false (p_calls p) (p_reads p) m flat with
      | (t', Raises, _) => (t ++ t', Raises, None)
      | (t', Returns None, _) => (t ++ t', Returns None, None)
      | (t', Returns (Some l), _) =>
          let all := p_entries p ++ l in
          if dump then match to_dataframe all with Some rows => (t ++ t', Returns (Some all), Some rows) | None => (t ++ t', Raises, None) end
          else (t ++ t', Returns (Some all), None)
      end
  | _, _ => (t, Raises, None)
  end.

(** model.py 207-222 [MultiModel.setup] for models none of whose hooks raise: every model's entries; the file gets them all under the
    names of the models, unless some model has none (KeyError).  Nothing is returned. *)
Definition multi_rows (profile dump : bool) (profiles : list (nat * list entry)) : option (list (nat * entry)) :=
  if (profile && dump)%bool then
    match profiles with
    | [] => Some []
    | _ => if forallb (fun p => match to_dataframe (snd p) with Some _ => true | None => false end) profiles
           then Some (flat_map (fun p => map (pair (fst p)) (snd p)) profiles) else None
    end
  else Some [].
