(** Harmonic series and discount factors (/repo/pywr/parameters/_parameters.pyx:1315-1408, 2165-2187). *)
From Coq Require Import Reals Qpower.
From Verif Require Import Base.
Local Open Scope R_scope.
Local Open Scope list_scope.

(** AnnualHarmonicSeriesParameter: its numbers and the value kept with the index of the timestep it belongs to (1336-1357).
    Real numbers, as the cosine needs them; the bounds, used by optimisers only, are left out. *)
Record harmonic := Harmonic { h_mean : R; h_amps : list R; h_phases : list R; h_cached : R; h_index : Z }.

(** __init__; [None]: ValueError. *)
Definition harmonic_init (mean : R) (amps phases : list R) : option harmonic :=
  if Nat.eqb (length amps) (length phases) then Some (Harmonic mean amps phases 0 (-1)%Z) else None.

(** reset, 1374-1377. *)
Definition harmonic_reset (h : harmonic) : harmonic := Harmonic (h_mean h) (h_amps h) (h_phases h) 0 (-1)%Z.

(** The loop of value, 1389-1390: `val += amplitudes[i]*cos(doy*(i+1)*M_PI*2/365 + phases[i])`, [i] counted from [n]. *)
Fixpoint harmonic_loop (doy : Z) (n : nat) (amps phases : list R) (val : R) : R :=
  match amps, phases with
  | a :: amps, f :: phases =>
      harmonic_loop doy (S n) amps phases (val + a * cos (IZR doy * (INR n + 1) * PI * 2 / 365 + f))
  | _, _ => val
  end.

(** value, 1379-1393; [dayofyear] counts from 1 and includes 29 February. *)
Definition harmonic_value (h : harmonic) (ts_index dayofyear : Z) : harmonic * R :=
  let doy := (dayofyear - 1)%Z in
  if (ts_index =? h_index h)%Z then (h, h_cached h)
  else let val := harmonic_loop doy 0 (h_amps h) (h_phases h) (h_mean h) in
       (Harmonic (h_mean h) (h_amps h) (h_phases h) val ts_index, val).

(** The values asked for one after another, for timesteps with these indices and days. *)
Fixpoint harmonic_values (h : harmonic) (calls : list (Z * Z)) : list R :=
  match calls with
  | [] => []
  | (i, doy) :: calls => let '(h, v) := harmonic_value h i doy in v :: harmonic_values h calls
  end.

(** set_double_variables 1395-1399 (memoryviews take a vector of their own length; one of length one, which would be
    repeated, is not modelled), get_double_variables 1401-1402. *)
Definition harmonic_set (h : harmonic) (values : list R) : option harmonic :=
  let n := length (h_amps h) in
  match values with
  | [] => None
  | m :: rest =>
      let a := firstn n rest in let f := skipn n rest in
      if Nat.eqb (length a) n && Nat.eqb (length f) (length (h_phases h)) then Some (Harmonic m a f (h_cached h) (h_index h)) else None
  end.
Definition harmonic_get (h : harmonic) : list R := h_mean h :: h_amps h ++ h_phases h.

(** DiscountFactorParameter.value, 2181-2182: `1 / pow(1.0 + rate, year - base_year)`; [None]: division by zero.  A negative
    power of zero is infinite and gives zero. *)
Definition discount (rate : Q) (base_year year : Z) : option Q :=
  let e := (year - base_year)%Z in
  if qeqb (1 + rate)%Q 0 then (if (e =? 0)%Z then Some 1%Q else if (0 <? e)%Z then None else Some 0%Q)
  else Some (1 / Qpower (1 + rate) e)%Q.
