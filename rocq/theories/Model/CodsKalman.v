(** rdtools/soiling.py: CODSAnalysis._Kalman_filter_for_SR and its helpers. *)

From Coq Require Import QArith Qcanon List ZArith Bool Arith String.
From Verif.Base Require Import QcExtra ISort Quantile Fl TimeSeries Calendar Rolling.
From Verif.Model Require Import Soiling CodsTools.
Import ListNotations.
Open Scope list_scope.
Open Scope Qc_scope.

(** ** The filter of the filterpy package for two states and one measurement *)

Record vec : Type := Vec { v0 : fl; v1 : fl }.
Record mat : Type := Mat { m00 : fl; m01 : fl; m10 : fl; m11 : fl }.

Definition vadd (a b : vec) : vec := Vec (fadd (v0 a) (v0 b)) (fadd (v1 a) (v1 b)).
Definition vsub (a b : vec) : vec := Vec (fsub (v0 a) (v0 b)) (fsub (v1 a) (v1 b)).
Definition madd (a b : mat) : mat := Mat (fadd (m00 a) (m00 b)) (fadd (m01 a) (m01 b)) (fadd (m10 a) (m10 b)) (fadd (m11 a) (m11 b)).
Definition msub (a b : mat) : mat := Mat (fsub (m00 a) (m00 b)) (fsub (m01 a) (m01 b)) (fsub (m10 a) (m10 b)) (fsub (m11 a) (m11 b)).
Definition mmul (a b : mat) : mat :=
  Mat (fadd (fmul (m00 a) (m00 b)) (fmul (m01 a) (m10 b))) (fadd (fmul (m00 a) (m01 b)) (fmul (m01 a) (m11 b)))
      (fadd (fmul (m10 a) (m00 b)) (fmul (m11 a) (m10 b))) (fadd (fmul (m10 a) (m01 b)) (fmul (m11 a) (m11 b))).
Definition mvec (a : mat) (x : vec) : vec :=
  Vec (fadd (fmul (m00 a) (v0 x)) (fmul (m01 a) (v1 x))) (fadd (fmul (m10 a) (v0 x)) (fmul (m11 a) (v1 x))).
Definition transpose (a : mat) : mat := Mat (m00 a) (m10 a) (m01 a) (m11 a).
Definition scale (c : fl) (a : mat) : mat := Mat (fmul c (m00 a)) (fmul c (m01 a)) (fmul c (m10 a)) (fmul c (m11 a)).

(** [np.linalg.inv]: LinAlgError for a singular matrix. *)
Definition inverse (a : mat) : result mat :=
  let det := fsub (fmul (m00 a) (m11 a)) (fmul (m01 a) (m10 a)) in
  if feq det (fz 0) then Raise LinAlgError
  else Ok (Mat (fdiv (m11 a) det) (fdiv (fneg (m01 a)) det) (fdiv (fneg (m10 a)) det) (fdiv (m00 a) det)).

(** The constants F and H of 2270-2272 ([dt] = 1, 2077); H picks the first state. *)
Definition trans_F : mat := Mat (fz 1) (fz 1) (fz 0) (fz 1).
Definition ident : mat := Mat (fz 1) (fz 0) (fz 0) (fz 1).

Record filter_state : Type := FS { f_x : vec; f_P : mat }.
(** The noise of the process and of the measurement. *)
Record filter_noise : Type := FN { f_Q : mat; f_R : fl }.

(** [KalmanFilter.predict]; the control input [u] reaches the first state (2277-2278). *)
Definition kf_predict (f : filter_noise) (u : option fl) (s : filter_state) : filter_state :=
  let x := mvec trans_F (f_x s) in
  FS (match u with None => x | Some c => vadd x (Vec c (fz 0)) end)
     (madd (mmul (mmul trans_F (f_P s)) (transpose trans_F)) (f_Q f)).

(** [KalmanFilter.update] (Joseph form). *)
Definition kf_update (f : filter_noise) (z : fl) (s : filter_state) : result filter_state :=
  let P := f_P s in
  let y := fsub z (v0 (f_x s)) in
  let S := fadd (m00 P) (f_R f) in
  if feq S (fz 0) then Raise LinAlgError
  else
    let k0 := fdiv (m00 P) S in
    let k1 := fdiv (m10 P) S in
    let A := msub ident (Mat k0 (fz 0) k1 (fz 0)) in
    Ok (FS (vadd (f_x s) (Vec (fmul k0 y) (fmul k1 y)))
           (madd (mmul (mmul A P) (transpose A))
                 (scale (f_R f) (Mat (fmul k0 k0) (fmul k0 k1) (fmul k1 k0) (fmul k1 k1))))).

(** [KalmanFilter.rts_smoother] on one stretch: from the last state back. *)
Fixpoint rts (f : filter_noise) (l : list filter_state) : result (list filter_state) :=
  match l with
  | [] => Ok []
  | s :: l' =>
    bind (rts f l') (fun rest =>
    match rest with
    | [] => Ok [s]
    | n :: _ =>
      let Pp := madd (mmul (mmul trans_F (f_P s)) (transpose trans_F)) (f_Q f) in
      bind (inverse Pp) (fun inv =>
      let K := mmul (mmul (f_P s) (transpose trans_F)) inv in
      Ok (FS (vadd (f_x s) (mvec K (vsub (f_x n) (mvec trans_F (f_x s)))))
             (madd (f_P s) (mmul (mmul K (msub (f_P n) Pp)) (transpose K))) :: rest))
    end)
  end.

(** ** _initialize_univariate_model, 2265-2281 *)
(** [Q_discrete_white_noise(dim=2, dt=1, var)]. *)
Definition white_noise (var : fl) : mat := Mat (fmul (ff 1 4) var) (fmul (ff 1 2) var) (fmul (ff 1 2) var) var.
Definition initial_noise (process_noise measurement_noise : fl) : filter_noise :=
  FN (white_noise (fmul process_noise process_noise)) measurement_noise.
Definition initial_state (slope intercept rate_std zs_std : fl) : filter_state :=
  FS (Vec intercept slope) (Mat (fmul zs_std zs_std) (fz 0) (fz 0) (fmul rate_std rate_std)).

(** ** _set_control_input, 2199-2236 *)

(** [np.argmax]: the first missing value, else the first largest. *)
Fixpoint argmax_from (best : fl) (b i : nat) (l : list fl) : nat :=
  match l with
  | [] => b
  | x :: l' => if isnan best then b else if isnan x || flt best x then argmax_from x i (S i) l' else argmax_from best b (S i) l'
  end.
Definition argmax (l : list fl) : nat := match l with [] => O | x :: l' => argmax_from x 0 1 l' end.

Fixpoint remove_first (k : nat) (l : list nat) : list nat :=
  match l with [] => [] | x :: l' => if (x =? k)%nat then l' else x :: remove_first k l' end.
Definition member (k : nat) (l : list nat) : bool := existsb (Nat.eqb k) l.
(** [bisect.insort]: after the elements not above it. *)
Fixpoint insort (k : nat) (l : list nat) : list nat :=
  match l with [] => [k] | x :: l' => if (k <? x)%nat then k :: l else x :: insort k l' end.

(** The median on row [i + d - 5]; [local] are the rows [i - 5], ..., [i + 5] (2188). *)
Definition local_medians (rm7 : list fl) (i : nat) : list fl := map (fun d => at_row rm7 (i + d - 5)) (seq 0 11).
Definition local_steps (local : list fl) : list fl := map (fun d => fsub (at_row local (S d)) (at_row local d)) (seq 0 10).

(** Control input and the cleaning events afterwards.  [|u| > sqrt(R)/2] (2221) is written
    without the root.  The list built in 2224 is local to the function and has no effect. *)
Definition control_input (f : filter_noise) (s : filter_state) (local : list fl) (i : nat) (ce : list nat) : fl * list nat :=
  let steps := local_steps local in
  let m := argmax steps in
  if (m =? 4)%nat || negb (member i ce) then
    let u := fsub (at_row local 8) (v0 (mvec trans_F (f_x s))) in
    if fle (fz 0) (f_R f) && fgt (fmul (fz 4) (fmul u u)) (f_R f) then (u, ce)
    else (fz 0, if member i ce then remove_first i ce else ce)
  else
    let ce' := remove_first i ce in
    let day := (i + m - 4)%nat in
    (fz 0, if fgt (at_row steps m) (fz 0) && negb (member day ce') then insort day ce' else ce').

(** ** _forward_pass, 2176-2197 *)
Fixpoint forward_from (f : filter_noise) (n : nat) (rm7 : list fl) (soiling : list nat) (i : nat) (zs : list fl)
    (s : filter_state) (ce : list nat) : result (list filter_state * list nat) :=
  match zs with
  | [] => Ok ([], ce)
  | z :: zs' =>
    let '(s1, ce1) :=
      if (7 <? i)%nat && (i + 7 <? n)%nat && (member i ce || member i soiling)
      then let '(u, ce1) := control_input f s (local_medians rm7 i) i ce in (kf_predict f (Some u) s, ce1)
      else (kf_predict f None s, ce) in
    bind (if isnan z then Ok s1 else kf_update f z s1) (fun s2 =>
    bind (forward_from f n rm7 soiling (S i) zs' s2 ce1) (fun r => Ok (s2 :: fst r, snd r)))
  end.
Definition forward_pass (f : filter_noise) (rm7 : list fl) (soiling : list nat) (zs : list fl) (s : filter_state) (ce : list nat) :=
  forward_from f (List.length zs) rm7 soiling 0 zs s ce.

(** ** _smooth_results, 2238-2263 *)
(** 2247-2251: borders of the stretches. *)
Definition borders (n : nat) (ce soiling : list nat) : list nat := isort Nat.leb (ce ++ [0%nat; (n - 1)%nat] ++ soiling).
(** 2254-2257: each stretch without its end is smoothed; [at_] are the states from row [a] on. *)
Fixpoint smooth_from (f : filter_noise) (a : nat) (ends : list nat) (states : list filter_state) : result (list filter_state) :=
  match ends with
  | [] => Ok states
  | e :: ends' =>
    bind (rts f (firstn (e - a) states)) (fun now =>
    bind (smooth_from f e ends' (skipn (e - a) states)) (fun later => Ok (now ++ later)))
  end.
Definition smooth_results (f : filter_noise) (states : list filter_state) (ce soiling : list nat) : result (list filter_state) :=
  smooth_from f 0 (borders (List.length states) ce soiling) states.

(** ** _Kalman_filter_for_SR, 1939-2174 *)

(** Sample variance ([Series.var]). *)
Definition fvar (l : list fl) : fl :=
  let m := fmean l in
  if (fcount l <? 2)%nat then NaN
  else fdiv (fsum (map (fun x => fmul (fsub x m) (fsub x m)) l)) (fz (Z.of_nat (fcount l) - 1)).

(** The settings that stay fixed during one call. *)
Record kalman_setup : Type := Setup {
  ks_zs : list fl; ks_noise : filter_noise; ks_slope : fl; ks_intercept : fl; ks_rm7 : list fl; ks_soiling : list nat;
  ks_prune : fl; ks_max_rate : fl; ks_perfect : bool; ks_renorm : option Qc; ks_clip : bool }.

(** One filter run: smoothed states, events, and the last covariance entries (2195) used as
    deviations of the next run. *)
Record kalman_run : Type := Run { kr_states : list filter_state; kr_events : list nat; kr_rate_std : fl; kr_zs_std : fl }.

(** 2094-2103 and 2120-2132. *)
Definition run_filter (k : kalman_setup) (rate_std zs_std : fl) (ce : list nat) : result kalman_run :=
  bind (forward_pass (ks_noise k) (ks_rm7 k) (ks_soiling k) (ks_zs k) (initial_state (ks_slope k) (ks_intercept k) rate_std zs_std) ce) (fun r =>
  let '(states, ce') := r in
  bind (smooth_results (ks_noise k) states ce' (ks_soiling k)) (fun smooth =>
  match rev states with
  | [] => Raise UnboundLocalError                                                    (* 2197 *)
  | last :: _ => Ok (Run smooth ce' (m11 (f_P last)) (m00 (f_P last)))
  end)).

Definition level (r : kalman_run) : list fl := map (fun s => v0 (f_x s)) (kr_states r).
Definition rate (r : kalman_run) : list fl := map (fun s => v1 (f_x s)) (kr_states r).

(** 2108-2118: events whose following week is unusually low are dropped, long rises added. *)
Definition week_after (l : list fl) (i : nat) : fl :=
  let w := map (fun d => noninf (at_row l (i + d))) (seq 0 7) in
  if existsb isnan w then NaN else fmedian w.
Definition keep_events (k : kalman_setup) (r : kalman_run) : result (list nat) :=
  let ce := kr_events r in
  bind (match ce with
        | [] => Ok ce
        | _ =>
          bind (find_numeric_outliers (ks_prune k) "lower" (map (week_after (level r)) ce)) (fun o =>
          match o with
          | Lower low => Ok (map fst (filter (fun p => negb (snd p)) (combine ce low)))
          | _ => Ok ce
          end)
        end) (fun kept =>
  let high := map (fun x => fgt x (ks_max_rate k)) (rate r) in
  if (1 <? List.length (filter (fun b => b) high))%nat then
    bind (collapse_cleaning_events 4 high (rate r)) (fun more =>
    Ok (isort Nat.leb (kept ++ filter (fun i => nth i more false) (seq 0 (List.length more)))))
  else Ok kept).

(** 2138-2160: soiling ratio and rates. *)
Definition after_cleaning (ce : list nat) (pi : list fl) : list fl :=
  fill_forward (map (fun i => if member i ce then at_row pi i else NaN) (seq 0 (List.length pi))).
Definition clean_ratio (ce : list nat) (pi : list fl) : list fl :=
  match ce with
  | [] => map (fun _ => fz 1) pi
  | first :: _ =>
    let ratio := map (fun p => fmul (fdiv (fz 1) (fst p)) (snd p)) (combine (after_cleaning ce pi) pi) in
    let mean := fmean (map (fun p => fdiv (fst p) (snd p)) (combine ratio pi)) in
    map (fun i => if (i <=? first)%nat then fmul (at_row pi i) mean else at_row ratio i) (seq 0 (List.length pi))
  end.
Definition renormalized (renorm : option Qc) (ce : list nat) (ratio : list fl) : list fl :=
  match renorm with
  | None => ratio
  | Some q => let d := fquantile q (map (at_row ratio) ce) in map (fun x => fdiv x d) ratio
  end.
Definition clip_upper (x : fl) : fl := if fgt x (fz 1) then fz 1 else x.
(** Ratio and rates ([None]: not set, all missing). *)
Definition ratio_and_rates (k : kalman_setup) (r : kalman_run) (rates_before : option (list fl)) : list fl * option (list fl) :=
  let ce := kr_events r in
  let ratio := renormalized (ks_renorm k) ce (if ks_perfect k then clean_ratio ce (level r) else level r) in
  if ks_clip k then
    let ratio := map clip_upper ratio in
    (ratio, Some (map (fun p => if feq (fst p) (fz 0) then fz 0 else snd p) (combine (diffs ratio) (rate r))))
  else (ratio, rates_before).

(** 2106-2160; [None] when the rounds given are used up.  A round that leaves the events alone
    sets the counter to 100 (2134). *)
Definition same_events (a b : list nat) : bool := if list_eq_dec Nat.eq_dec a b then true else false.
Fixpoint prune_loop (fuel : nat) (k : kalman_setup) (iterations counter : nat) (r : kalman_run)
    (ratio : list fl) (rates : option (list fl)) : option (result (kalman_run * list fl * option (list fl))) :=
  if (counter <? iterations)%nat then
    match fuel with
    | O => None
    | S fuel' =>
      match keep_events k r with
      | Raise e => Some (Raise e)
      | Ok ce =>
        if same_events (kr_events r) ce then
          let '(ratio', rates') := ratio_and_rates k r rates in
          prune_loop fuel' k iterations 100 r ratio' rates'
        else
          match run_filter k (kr_rate_std r) (kr_zs_std r) ce with
          | Raise e => Some (Raise e)
          | Ok r' => let '(ratio', rates') := ratio_and_rates k r' rates in
                     prune_loop fuel' k iterations (S counter) r' ratio' rates'
          end
      end
    end
  else Some (Ok (r, ratio, rates)).

(** The columns of the result that are used later. *)
Record kalman_frame : Type := Frame {
  k_level : list fl; k_rate : list fl; k_ratio : list fl; k_rates : list fl; k_events : list bool; k_days : list fl }.

(** 2162-2168. *)
Definition days_since (n : nat) (ce : list nat) : list fl :=
  let starts := map (fun i => if (i =? 0)%nat then fz 0 else if member i ce then fz (Z.of_nat i) else NaN) (seq 0 n) in
  map (fun p => fsub (fz (Z.of_nat (fst p))) (snd p)) (combine (seq 0 n) (fill_forward starts)).

(** 2028-2045: the events to begin with; a given series is used if it has more than four. *)
Definition true_rows (b : list bool) : list nat := filter (fun i => nth i b false) (seq 0 (List.length b)).
Definition first_events (zs : list fl) (prescient : option (list bool)) : result (list nat) :=
  let detect :=
    let '(ce, rm9) := ce_detection true 9 (ff 1 2) zs in
    bind (collapse_cleaning_events 5 ce (diffs rm9)) (fun b => Ok (true_rows b)) in
  match prescient with
  | Some b => if (4 <? List.length (true_rows b))%nat
              then if (List.length b =? List.length zs)%nat then Ok (true_rows b) else Raise ValueError
              else detect
  | None => detect
  end.

(** 2047-2088. *)
Definition kalman_setup_of (zs : list fl) (ffill : bool) (process_noise prune max_rate : fl) (renorm : option Qc) (perfect clip : bool) : kalman_setup :=
  let medians w := fill_backward (fill_forward (centered_medians w (fill ffill zs))) in
  let noise := fvar (map (fun p => fsub (fst p) (snd p)) (combine (medians 13%nat) zs)) in
  let '(slope, intercept, _, _) := theil_fit (fun _ => 0)
      (combine (map Z.of_nat (seq 0 14)) (firstn 14 (fill_backward zs))) in
  Setup zs (initial_noise process_noise noise) slope intercept (medians 7%nat) (true_rows (soiling_detection ffill (fz 5) zs))
        prune max_rate perfect renorm clip.

Definition kalman_filter_for_SR (fuel : nat) (zs : list fl) (process_noise zs_std rate_std max_rate : fl) (iterations : nat)
    (prune : fl) (renorm : option Qc) (perfect : bool) (prescient : option (list bool)) (clip ffill : bool) : option (result kalman_frame) :=
  match first_events zs prescient with
  | Raise e => Some (Raise e)
  | Ok ce =>
    let k := kalman_setup_of zs ffill process_noise prune max_rate renorm perfect clip in
    match run_filter k rate_std zs_std ce with
    | Raise e => Some (Raise e)
    | Ok r =>
      let missing := map (fun _ => NaN) zs in
      match prune_loop fuel k iterations 0 r missing None with
      | None => None
      | Some (Raise e) => Some (Raise e)
      | Some (Ok (r', ratio, rates)) =>
        let n := List.length zs in
        Some (Ok (Frame (level r') (rate r') ratio (match rates with Some x => x | None => missing end)
                        (map (fun i => member i (kr_events r')) (seq 0 n)) (days_since n (kr_events r'))))
      end
    end
  end.
