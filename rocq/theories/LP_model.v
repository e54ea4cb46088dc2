(** The linear programme as the GLPK interface of pywr sees it, and the bound arithmetic shared by the
    GLPK solvers (/repo/pywr/solvers/cython_glpk.pyx).

    GLPK itself is not modelled: a solved timestep is *any* vector that satisfies the rows and columns
    posed ([feasible]), or any cheapest one ([optimal]).  Doubles are rationals; `inf` and `DBL_MAX`
    are one value [PInf] (`inf_to_dbl_max`, lines 90-95, turns the first into the second). *)
From Verif Require Import Base.
Open Scope Q_scope.

Inductive ext := NInf | Fin (q : Q) | PInf.

(** glp_set_row_bnds types. *)
Inductive rtype := FR | LO | UP | DB | FX.

Definition eps8 : Q := 1 # 100000000.

(** `if abs(v) < 1e-8: v = 0.0` (lines 771-775, 898-901, 933-938, 979-982). *)
Definition round8 (q : Q) : Q := if qltb (qabs q) eps8 then 0 else q.
Definition eround8 (e : ext) : ext := match e with Fin q => Fin (round8 q) | _ => e end.

(** `abs(a - b) < 1e-8`; the difference of DBL_MAX and itself is 0. *)
Definition near (a b : ext) : bool :=
  match a, b with
  | Fin x, Fin y => qltb (qabs (x - y)) eps8
  | PInf, PInf => true
  | NInf, NInf => true
  | _, _ => false
  end.

(** constraint_type, lines 66-77. *)
Definition constraint_type (a b : ext) : rtype :=
  if near a b then FX
  else match b, a with
       | PInf, NInf => FR
       | PInf, _ => LO
       | _, NInf => UP
       | _, _ => DB
       end.

Record row := { r_coef : list (nat * Q); r_type : rtype; r_lb : ext; r_ub : ext }.

Definition row_value (x : nat -> Q) (r : row) : Q := qsum (map (fun c => snd c * x (fst c)) (r_coef r)).

Definition ext_le_q (e : ext) (q : Q) : Prop := match e with NInf => True | Fin a => a <= q | PInf => False end.
Definition q_le_ext (q : Q) (e : ext) : Prop := match e with NInf => False | Fin a => q <= a | PInf => True end.

(** Meaning of a row in GLPK: of an FX row only the lower bound is read. *)
Definition bounds_ok (t : rtype) (lb ub : ext) (v : Q) : Prop :=
  match t with
  | FR => True
  | LO => ext_le_q lb v
  | UP => q_le_ext v ub
  | DB => ext_le_q lb v /\ q_le_ext v ub
  | FX => match lb with Fin q => v == q | _ => False end
  end.

Definition row_ok (x : nat -> Q) (r : row) : Prop := bounds_ok (r_type r) (r_lb r) (r_ub r) (row_value x r).

Record lp := { lp_ncols : nat; lp_rows : list row; lp_obj : nat -> Q }.

Definition objective (P : lp) (x : nat -> Q) : Q :=
  qsum (map (fun c => lp_obj P c * x c) (seq 0 (lp_ncols P))).

Definition feasible (P : lp) (x : nat -> Q) : Prop :=
  (forall c, (c < lp_ncols P)%nat -> 0 <= x c) /\ (forall r, In r (lp_rows P) -> row_ok x r).

Definition optimal (P : lp) (x : nat -> Q) : Prop :=
  feasible P x /\ forall y, feasible P y -> objective P x <= objective P y.

(** Exceptions raised while the problem is posed. *)
Inductive error := ModelEmpty | NoRoutes | NoNonStorage | NotOnRoute (n : nat) | BadEdge (n : nat) | BadFactors (n : nat) | GlpkError.
Inductive result (A : Type) := Ok (a : A) | Err (e : error).
Arguments Ok {A} _.
Arguments Err {A} _.

Fixpoint mapM {A B} (f : A -> result B) (l : list A) : result (list B) :=
  match l with
  | [] => Ok []
  | a :: r => match f a with
              | Err e => Err e
              | Ok b => match mapM f r with Err e => Err e | Ok s => Ok (b :: s) end
              end
  end.

(** glp_set_mat_row refuses duplicated column indices (xerror, which the hook of lines 106-112 turns
    into a GLPKError). *)
Fixpoint nodupb (l : list nat) : bool :=
  match l with [] => true | x :: r => negb (existsb (Nat.eqb x) r) && nodupb r end.

(** set_mat_row_safe (lines 321-336) refuses a row without entries as well.  (With use_unsafe_api the rows of factors, the only
    ones set while solving, are not checked for that.) *)
Definition set_row (coef : list (nat * Q)) (t : rtype) (lb ub : ext) : result row :=
  if nodupb (map fst coef) && match coef with [] => false | _ => true end
  then Ok {| r_coef := coef; r_type := t; r_lb := lb; r_ub := ub |} else Err GlpkError.

(** Row bounds from a min_flow/max_flow pair (lines 767-778, 929-946, 948-961 and, for the edge solver,
    1744-1776). *)
Definition flow_bounds (mn mx : ext) : rtype * ext * ext :=
  (constraint_type (eround8 mn) (eround8 mx), eround8 mn, eround8 mx).

(** Row bounds of a storage (lines 965-988): [vol] the volume now, [mn] [mx] the volume bounds. *)
Definition storage_bounds (vol mn : Q) (mx : ext) (days : Q) : rtype * ext * ext :=
  if match mx with Fin m => qeqb m mn | _ => false end then (FX, Fin 0, Fin 0)
  else
    let avail := qmax (vol - mn) 0 in
    let lb := round8 (- avail / days) in
    let ub := match mx with
              | Fin m => Fin (round8 (qmax (m - vol) 0 / days))
              | PInf => PInf
              | NInf => Fin 0
              end in
    (constraint_type (Fin lb) ub, Fin lb, ub).

(** Row bounds of a virtual storage (lines 991-1019). *)
Definition virtual_bounds (active : bool) (vol mn : Q) (mx : ext) (days : Q) : rtype * ext * ext :=
  if match mx with Fin m => qeqb m mn | _ => false end then (FX, Fin 0, Fin 0)
  else if negb active then (FR, NInf, PInf)
  else storage_bounds vol mn mx days.
