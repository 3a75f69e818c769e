(** Specification: the same Kalman filter run with the index written in another unit. *)

From Coq Require Import QArith Qcanon List ZArith Bool.
From Verif.Base Require Import QcExtra Fl.
From Verif.Model Require Import CodsKalman.
Import ListNotations.
Open Scope list_scope.
Open Scope Qc_scope.

(** [k] of the new unit make one of the old; variances take [k] twice. *)
Definition amount (k : Qc) (x : fl) : fl := fmul (Fin k) x.
Definition amounts (k : Qc) (l : list fl) : list fl := map (amount k) l.
Definition state_in (k : Qc) (s : filter_state) : filter_state :=
  FS (Vec (amount k (v0 (f_x s))) (amount k (v1 (f_x s))))
     (Mat (amount (k * k) (m00 (f_P s))) (amount (k * k) (m01 (f_P s))) (amount (k * k) (m10 (f_P s))) (amount (k * k) (m11 (f_P s)))).
Definition noise_in (k : Qc) (f : filter_noise) : filter_noise :=
  FN (Mat (amount (k * k) (m00 (f_Q f))) (amount (k * k) (m01 (f_Q f))) (amount (k * k) (m10 (f_Q f))) (amount (k * k) (m11 (f_Q f))))
     (amount (k * k) (f_R f)).
(** Data, noise, line, medians and the limit on rates carry the unit; events and factors do not. *)
Definition setup_in (k : Qc) (s : kalman_setup) : kalman_setup :=
  Setup (amounts k (ks_zs s)) (noise_in k (ks_noise s)) (amount k (ks_slope s)) (amount k (ks_intercept s)) (amounts k (ks_rm7 s))
        (ks_soiling s) (ks_prune s) (amount k (ks_max_rate s)) (ks_perfect s) (ks_renorm s) (ks_clip s).
(** The last two entries are variances. *)
Definition run_in (k : Qc) (r : kalman_run) : kalman_run :=
  Run (map (state_in k) (kr_states r)) (kr_events r) (amount (k * k) (kr_rate_std r)) (amount (k * k) (kr_zs_std r)).
(** Levels and rates carry the unit, the soiling ratio, the events and the counts of days do not. *)
Definition frame_in (k : Qc) (f : kalman_frame) : kalman_frame :=
  Frame (amounts k (k_level f)) (amounts k (k_rate f)) (k_ratio f) (amounts k (k_rates f)) (k_events f) (k_days f).
(** Without an anchor, neither perfect cleaning nor renormalising, the ratio is the level itself. *)
Definition plain_frame_in (k : Qc) (f : kalman_frame) : kalman_frame :=
  Frame (amounts k (k_level f)) (amounts k (k_rate f)) (amounts k (k_ratio f)) (amounts k (k_rates f)) (k_events f) (k_days f).
