(** Spectral density of spheres, said without tables. *)
From Coq Require Import List ZArith Reals.
From Verif Require Import Spec_Stats Spec_BondAngle Spec_Fourier.
Import ListNotations.
Local Open Scope R_scope.

(** Fourier transform at wave-number q of the indicator function of a sphere of radius a
    centered in the origin. *)
Definition sphere_transform (q a : R) : R := 4 * PI * (sin (q * a) - q * a * cos (q * a)) / (q * q * q).

(** |sum_p m_q(R_p) exp(i k.r_p)|^2 *)
Definition filled_sq (q : R) (k : list R) (pos : list (list R)) (radii : list R) : R :=
  let w := map (sphere_transform q) radii in
  rho_re k pos w * rho_re k pos w + rho_im k pos w * rho_im k pos w.
