(** Interpolated parameters ([pywr/parameters/parameters.py] 124-277) and the aquifer built from one ([pywr/domains/groundwater.py]).

    [scipy.interpolate.interp1d] is modelled for [kind="linear"] (the default of AbstractInterpolatedParameter, 130): the points are sorted by [x], a value
    is looked up with [searchsorted] (left), the index clipped to 1..n-1, and the line through the two points taken.  Other kinds are not modelled,
    nor is InterpolatedQuadratureParameter (adaptive numerical integration). *)
From Verif Require Import Base LP_model Sorting Physics_model.
Local Open Scope Q_scope.
Local Open Scope list_scope.

Notation point := (Q * Q)%type.
Definition by_x (a b : point) : bool := qleb (fst a) (fst b).

(** The line through two points. *)
Definition line (a b : point) (v : Q) : Q := (snd b - snd a) / (fst b - fst a) * (v - fst a) + snd a.
(** The segment ending at the first point not below [v], but never beyond the last segment. *)
Fixpoint on_segments (l : list point) (v : Q) : Q :=
  match l with
  | a :: ((b :: r) as t) => if qleb v (fst b) then line a b v else match r with [] => line a b v | _ => on_segments t v end
  | [a] => snd a
  | [] => 0
  end.

(** [bounds_error] and [fill_value] of interp1d; a list given for [fill_value] is made a tuple (142-148). *)
Inductive fill := FillNan | FillPair (below above : Q) | FillExtrapolate.
Record options := Options { o_bounds_error : bool; o_fill : fill }.
(** 130-134: the defaults are [bounds_error=True], updated with what is given. *)
Definition with_defaults (bounds_error : option bool) (fill_value : option fill) : options :=
  Options (match bounds_error with Some b => b | None => true end) (match fill_value with Some f => f | None => FillNan end).

(** setup 150-152: interp1d refuses to extrapolate and raise at the same time, different lengths and fewer than two points are refused too. *)
Definition make_interp (o : options) (xs ys : list Q) : option (list point) :=
  if negb (Nat.eqb (length xs) (length ys)) then None
  else if Nat.ltb (length xs) 2 then None
  else match o_bounds_error o, o_fill o with
       | true, FillExtrapolate => None
       | _, _ => Some (isort by_x (combine xs ys))
       end.
Definition first_x (l : list point) : Q := match l with a :: _ => fst a | [] => 0 end.
Definition last_x (l : list point) : Q := fst (last l (0, 0)).
(** Calling it.  [None] is a ValueError, [Some None] is NaN. *)
Definition call_interp (o : options) (l : list point) (v : Q) : option (option Q) :=
  if qltb v (first_x l) then
    if o_bounds_error o then None else match o_fill o with FillNan => Some None | FillPair a _ => Some (Some a) | FillExtrapolate => Some (Some (on_segments l v)) end
  else if qltb (last_x l) v then
    if o_bounds_error o then None else match o_fill o with FillNan => Some None | FillPair _ b => Some (Some b) | FillExtrapolate => Some (Some (on_segments l v)) end
  else Some (Some (on_segments l v)).
Definition interpolate (o : options) (xs ys : list Q) (v : Q) : option (option Q) :=
  match make_interp o xs ys with None => None | Some l => call_interp o l v end.

(** What is interpolated for a scenario combination: the value of another parameter (180), the current volume of a storage (218), or the flow of a node
    in the previous timestep (266). *)
Record state := State { st_value : nat -> Q; st_volume : nat -> Q; st_prev_flow : nat -> Q }.
Inductive source := OfParameter | OfVolume | OfPreviousFlow.
Definition source_value (s : source) (st : state) (scenario : nat) : Q :=
  match s with OfParameter => st_value st scenario | OfVolume => st_volume st scenario | OfPreviousFlow => st_prev_flow st scenario end.
Definition interpolated_value (s : source) (o : options) (xs ys : list Q) (st : state) (scenario : nat) : option (option Q) :=
  interpolate o xs ys (source_value s st scenario).

(** ** KeatingAquifer *)
Record aquifer := Aquifer { q_levels : list Q; q_volumes : list Q; q_streams : list (list Q); q_transmissivity : list Q; q_coefficient : Q;
  q_max_volume : Q; q_min_volume : Q }.
(** groundwater.py 84-87: layer by layer. *)
Fixpoint layer_volumes (area volume level : Q) (levels storativity : list Q) : list Q :=
  match levels, storativity with
  | l :: lr, s :: sr => let v := volume + area * s * (l - level) * (1 # 1000) in v :: layer_volumes area v l lr sr
  | _, _ => []
  end.
Definition volumes_of (area : Q) (levels storativity : list Q) : list Q :=
  match levels with l :: r => 0 :: layer_volumes area 0 l r storativity | [] => [0] end.
(** __init__ 60-113; [volumes] or [area] and [storativity] (None where they are not given). *)
Definition make_aquifer (num_streams : nat) (streams : list (list Q)) (transmissivity : list Q) (coefficient : Q) (levels : list Q)
    (volumes : option (list Q)) (area : option Q) (storativity : option (list Q)) : option aquifer :=
  if Nat.eqb num_streams 0 then None
  else if negb (Nat.eqb (length streams) num_streams) then None
  else if negb (forallb (fun s => Nat.eqb (length s) (length transmissivity)) streams) then None
  else
    let vs := match volumes with
              | Some v => if Nat.eqb (length v) (length levels) then Some v else None
              | None => match area, storativity with
                        | Some a, Some s => if Nat.eqb (length s) (length levels - 1) then Some (volumes_of a levels s) else None
                        | _, _ => None
                        end
              end in
    match vs with
    | None => None
    | Some [] => None
    | Some (v :: r) => match make_interp (Options true FillNan) levels (v :: r) with
                       | None => None
                       | Some _ => Some (Aquifer levels (v :: r) streams transmissivity coefficient (fold_left qmax r v) (fold_left qmin r v))
                       end
    end.
(** 120-123, the setter of initial_level: [_level_to_volume]. *)
Definition initial_volume_for (a : aquifer) (level : Q) : option (option Q) := interpolate (Options true FillNan) (q_levels a) (q_volumes a) level.
(** The level of the aquifer, an InterpolatedVolumeParameter (105), for a volume. *)
Definition level_at (a : aquifer) (volume : Q) : option (option Q) := interpolate (with_defaults None None) (q_volumes a) (q_levels a) volume.
(** 116-118, the getter of initial_level calls [self.level.interp], which is None until the parameter's setup has run (129, 152): a TypeError. *)
Definition initial_level_of (a : aquifer) (is_set_up : bool) (initial_volume : Q) : option (option Q) :=
  if is_set_up then level_at a initial_volume else None.
(** 108-113: flow of stream [n], both minimum and maximum. *)
Definition stream_flow (a : aquifer) (n : nat) (volume : Q) : option Q :=
  match level_at a volume with
  | Some (Some level) => Some (keating (q_coefficient a) (nth n (q_streams a) []) (q_transmissivity a) level)
  | _ => None
  end.
