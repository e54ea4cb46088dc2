(** Kernel density estimates of storage: /repo/pywr/recorders/kde.py, with scipy.stats.gaussian_kde as documented (Scott's rule, equal weights).

    The values are the recorded (and perhaps resampled) proportional volumes of all scenarios, as real numbers.  The cumulative
    distribution function [F] of the standard normal distribution and its density [f] are any functions here; theorems say what they need of them. *)
From Coq Require Import Reals.
From Verif Require Import Base.
Local Open Scope R_scope.
Local Open Scope list_scope.

Definition rsum (l : list R) : R := fold_right Rplus 0 l.
Definition rmean (l : list R) : R := rsum l / INR (length l).

(** gaussian_kde(values): `covariance = cov(values, bias=False) * factor**2` with `factor = n**(-1/5)`; the kernel's width is its square root.
    [None]: the covariance cannot be inverted, LinAlgError (for fewer than two values as well). *)
Definition variance (l : list R) : R := rsum (map (fun v => (v - rmean l) * (v - rmean l)) l) / (INR (length l) - 1).
Definition scott (n : nat) : R := Rpower (INR n) (- (1 / 5)).
Definition width (l : list R) : R := sqrt (variance l * (scott (length l) * scott (length l))).
Definition fitted (l : list R) : bool := Nat.leb 2 (length l) && (if Req_EM_T (variance l) 0 then false else true).

Section Kde.
Variables F f : R -> R.

(** `kernel.integrate_box_1d(low, high)` and `kernel(x)`. *)
Definition integrate (l : list R) (low high : R) : R := rmean (map (fun v => F ((high - v) / width l) - F ((low - v) / width l)) l).
Definition density (l : list R) (x : R) : R := rmean (map (fun v => f ((x - v) / width l) / width l) l).

(** _estimate_pdf_and_target_probability, kde.py:85-112 and 190-216: between [low] and [high], with reflections about the numbers halved here. *)
Definition reflected (c : R) (l : list R) : list R := map (fun v => c - v) l.
Definition estimate (reflections : list R) (use_reflection : bool) (l : list R) (low high : R) (x : list R) : option (R * list R) :=
  if fitted l then
    let kernels := l :: (if use_reflection then map (fun c => reflected c l) reflections else []) in
    Some (rsum (map (fun k => integrate k low high) kernels), map (fun y => rsum (map (fun k => density k y) kernels)) x)
  else None.

(** `np.linspace(0.0, 1.0, num_pdf)`, 63 and 168. *)
Definition linspace01 (n : nat) : list R := map (fun i => INR i / INR (n - 1)) (seq 0 n).

(** GaussianKDEStorageRecorder: probability and PDF with its index; NormalisedGaussianKDEStorageRecorder. *)
Definition kde_storage (use_reflection : bool) (num_pdf : nat) (target : R) (l : list R) : option (R * list (R * R)) :=
  let x := linspace01 num_pdf in
  option_map (fun r => (fst r, combine x (snd r))) (estimate [0; 2] use_reflection l 0 target x).
Definition kde_normalised (use_reflection : bool) (num_pdf : nat) (l : list R) : option (R * list (R * R)) :=
  let x := linspace01 num_pdf in
  option_map (fun r => (fst r, combine x (snd r))) (estimate [-2; 2] use_reflection l (-1) 0 x).
End Kde.
