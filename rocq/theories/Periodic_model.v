(** Licences that reset themselves: /repo/pywr/nodes.py:596-757.  Only the decision when to reset and when to
    be active; the reset itself is [reset_storage_only] of Storage_model.v. *)
From Verif Require Import Base Calendar_spec.
Local Open Scope Z_scope.

(** ts.index, ts.year, ts.month, ts.day. *)
Record pts := { p_index : nat; p_date : date }.

(** `ts.month > m or (ts.month == m and ts.day >= d)` (644-646, 715-717) and with `>` (634-636). *)
Definition at_or_past (t : date) (m d : Z) : bool := (m <? mon t) || ((mon t =? m) && (d <=? dom t)).
Definition past (t : date) (m d : Z) : bool := (m <? mon t) || ((mon t =? m) && (d <? dom t)).

Record annual_cfg := { c_reset_month : Z; c_reset_day : Z; c_to_initial : bool; c_max_is_parameter : bool }.
Record annual := { a_last_reset_year : option Z; a_active : bool }.

Definition year_is (o : option Z) (y : Z) : bool := match o with Some z => z =? y | None => false end.

(** __init__ 612-624 (active: _core.pyx:1462), reset 626-628 (active: _core.pyx:1464-1466). *)
Definition annual_reset : annual := {| a_last_reset_year := None; a_active := true |}.

(** before, 630-656.  Second component: the argument use_initial_volume if the volume is reset. *)
Definition annual_before (c : annual_cfg) (s : annual) (t : pts) : annual * option bool :=
  let y := yr (p_date t) in
  let last := if Nat.eqb (p_index t) 0 && past (p_date t) (c_reset_month c) (c_reset_day c)
              then Some y else a_last_reset_year s in
  if negb (year_is last y) && at_or_past (p_date t) (c_reset_month c) (c_reset_day c)
  then ({| a_last_reset_year := Some y; a_active := true |},
        Some (if Nat.eqb (p_index t) 0 && c_max_is_parameter c then true else c_to_initial c))
  else ({| a_last_reset_year := last; a_active := a_active s |}, None).

Fixpoint annual_run (c : annual_cfg) (s : annual) (ts : list pts) : list (option bool) :=
  match ts with
  | [] => []
  | t :: r => let '(s', e) := annual_before c s t in e :: annual_run c s' r
  end.

(** SeasonalVirtualStorage, 659-719. *)
Record seasonal_cfg := { c_annual : annual_cfg; c_end_month : Z; c_end_day : Z }.
Record seasonal := { e_annual : annual; e_last_active_year : option Z }.

Definition seasonal_new : seasonal := {| e_annual := annual_reset; e_last_active_year := None |}.

(** reset is inherited from AnnualVirtualStorage: _last_active_year is left as it is. *)
Definition seasonal_reset (s : seasonal) : seasonal :=
  {| e_annual := annual_reset; e_last_active_year := e_last_active_year s |}.

(** before, 694-719. *)
Definition seasonal_before (c : seasonal_cfg) (s : seasonal) (t : pts) : seasonal * option bool :=
  let '(a, e) := annual_before (c_annual c) (e_annual s) t in
  let y := yr (p_date t) in
  let rm := c_reset_month (c_annual c) in
  let rd := c_reset_day (c_annual c) in
  let em := c_end_month c in
  let ed := c_end_day c in
  let s' :=
    if negb (year_is (e_last_active_year s) y) then
      if Nat.eqb (p_index t) 0 then
        if year_is (a_last_reset_year a) y then
          if (em <? rm) || ((em =? rm) && (ed <=? rd))
          then {| e_annual := a; e_last_active_year := Some y |}
          else {| e_annual := a; e_last_active_year := e_last_active_year s |}
        else
          if (rm <? em) || ((em =? rm) && (rd <=? ed))
          then {| e_annual := {| a_last_reset_year := a_last_reset_year a; a_active := false |};
                  e_last_active_year := e_last_active_year s |}
          else {| e_annual := a; e_last_active_year := e_last_active_year s |}
      else if at_or_past (p_date t) em ed
           then {| e_annual := {| a_last_reset_year := a_last_reset_year a; a_active := false |};
                   e_last_active_year := Some y |}
           else {| e_annual := a; e_last_active_year := e_last_active_year s |}
    else {| e_annual := a; e_last_active_year := e_last_active_year s |} in
  (s', e).

(** The value of `active` in each timestep, and the state at the end. *)
Fixpoint seasonal_run (c : seasonal_cfg) (s : seasonal) (ts : list pts) : list bool * seasonal :=
  match ts with
  | [] => ([], s)
  | t :: r => let '(s', _) := seasonal_before c s t in
              let '(l, s'') := seasonal_run c s' r in
              (a_active (e_annual s') :: l, s'')
  end.

(** MonthlyVirtualStorage, 722-757. *)
Record monthly := { m_count : Z; m_last_month : option Z }.

(** reset, 743-746. *)
Definition monthly_reset (initial_months : Z) : monthly := {| m_count := initial_months - 1; m_last_month := None |}.

(** before, 748-757: new state and whether the volume is reset. *)
Definition monthly_before (months : Z) (s : monthly) (month : Z) : monthly * bool :=
  if year_is (m_last_month s) month then (s, false)
  else
    let count := m_count s + 1 in
    if count =? months then ({| m_count := 0; m_last_month := Some month |}, true)
    else ({| m_count := count; m_last_month := Some month |}, false).

Fixpoint monthly_run (months : Z) (s : monthly) (ms : list Z) : list bool :=
  match ms with
  | [] => []
  | m :: r => let '(s', b) := monthly_before months s m in b :: monthly_run months s' r
  end.
