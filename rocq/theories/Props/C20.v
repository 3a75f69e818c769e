(** C20: irradiance_rescale *)

From Coq Require Import QArith Qcanon List ZArith Bool Arith Lia Permutation Sorted.
From Verif.Base Require Import QcExtra ISort Quantile Fl TimeSeries Calendar Rolling.
From Verif.Spec Require Import Stats Interp Energy Filters Normalization.
From Verif.Model Require Import Interpolation Energy Filters Normalization.
From Verif.Proofs Require Import StatsP FiltersP NormP NormP2 NormP3.
Import ListNotations.
Open Scope list_scope.
Open Scope Qc_scope.

(** The iterative method: the factors tried are the ratio of the 90th percentiles and then, each
    from its predecessor, the outcome of the optimiser, as long as a factor is further than the
    threshold from the one before (1 before the first).  The result is the last factor times
    the simulated irradiance if at most max_iterations optimisations were needed, and
    ConvergenceError otherwise. *)
Theorem C20_iterative : forall optimise irrad sim n thr a b,
  noinf (vals irrad) -> noinf (vals sim) ->
  is_percentile (qz 90) (finvals (vals irrad)) a -> is_percentile (qz 90) (finvals (vals sim)) b ->
  let start := fdiv (Fin a) (Fin b) in
  let next f := optimise (mean_square (clear_rows f (pairs_of irrad sim))) f in
  (forall out, irradiance_rescale optimise irrad sim n Iterative thr = Ok out <->
     exists fs l p g, tried next thr (Fin 1) start fs /\ (length fs <= n)%nat /\
       Fin 1 :: start :: fs = l ++ [p; g] /\ ~ far thr g p /\ out = on_values (fmul g) sim) /\
  (forall e, irradiance_rescale optimise irrad sim n Iterative thr = Raise e <->
     e = ConvergenceError /\
     exists fs l p g, tried next thr (Fin 1) start fs /\ length fs = n /\
       Fin 1 :: start :: fs = l ++ [p; g] /\ far thr g p).
Proof. exact rescale_iterative. Qed.

(** A first guess within the threshold of 1 is used as it is. *)
Theorem C20_no_step : forall optimise irrad sim n thr a b,
  noinf (vals irrad) -> noinf (vals sim) ->
  is_percentile (qz 90) (finvals (vals irrad)) a -> is_percentile (qz 90) (finvals (vals sim)) b ->
  ~ far thr (fdiv (Fin a) (Fin b)) (Fin 1) ->
  irradiance_rescale optimise irrad sim n Iterative thr = Ok (on_values (fmul (fdiv (Fin a) (Fin b))) sim).
Proof. exact rescale_no_step. Qed.

(** The single optimisation. *)
Theorem C20_single : forall optimise irrad sim n thr a b,
  noinf (vals irrad) -> noinf (vals sim) ->
  is_percentile (qz 90) (finvals (vals irrad)) a -> is_percentile (qz 90) (finvals (vals sim)) b ->
  irradiance_rescale optimise irrad sim n SingleOpt thr =
  Ok (on_values (fmul (optimise (mean_square_single (pairs_of irrad sim)) (fdiv (Fin a) (Fin b)))) sim).
Proof. exact rescale_single. Qed.

Theorem C20_other : forall optimise irrad sim n thr,
  irradiance_rescale optimise irrad sim n OtherMethod thr = Raise ValueError.
Proof. exact rescale_other. Qed.

Theorem C20_no_data : forall optimise irrad sim n m thr, m <> OtherMethod ->
  (forall t v, In (t, v) irrad -> v = NaN) \/ (forall t v, In (t, v) sim -> v = NaN) ->
  noinf (vals irrad) ->
  irradiance_rescale optimise irrad sim n m thr = Raise IndexError.
Proof. exact rescale_no_data. Qed.

(** What is minimised: the mean squared difference over the rows that are clear for the
    previous factor; missing if there is none. *)
Theorem C20_objective : forall g rows ps x, rows_noinf rows -> picked (clear_at g) rows ps ->
  mean_square (clear_rows (Fin g) rows) (Fin x) = match ps with [] => NaN | _ => Fin (mean_sq ps x) end.
Proof. exact objective_iterative. Qed.

Theorem C20_objective_single : forall rows ps x, rows_noinf rows -> picked (near_at x) rows ps ->
  mean_square_single rows (Fin x) = match ps with [] => NaN | _ => Fin (mean_sq ps x) end.
Proof. exact objective_single. Qed.

(** The rows are the pairs of values at the same time. *)
Theorem C20_rows : forall irrad sim, NoDup (times irrad) -> NoDup (times sim) -> noinf (vals irrad) -> noinf (vals sim) ->
  rows_noinf (pairs_of irrad sim) /\
  (forall p q, In (p, q) (pairs_of irrad sim) <->
     exists t, (In t (times irrad) \/ In t (times sim)) /\ value_at irrad t p /\ value_at sim t q).
Proof. exact pairs_rows. Qed.

(** An optimiser that finds the minimum makes the next factor the least-squares factor of the
    clear rows, which is within 20 % of the previous one. *)
Theorem C20_least_squares : forall optimise g irrad sim,
  NoDup (times irrad) -> NoDup (times sim) -> noinf (vals irrad) -> noinf (vals sim) -> 0 < g ->
  forall ps, picked (clear_at g) (pairs_of irrad sim) ps -> ps <> [] ->
  let objective := mean_square (clear_rows (Fin g) (pairs_of irrad sim)) in
  minimises optimise objective (Fin g) ->
  exists x, optimise objective (Fin g) = Fin x /\
    x * qsum (map (fun p => snd p * snd p) ps) = qsum (map (fun p => snd p * fst p) ps) /\
    qf 8 10 * g <= x /\ x <= qf 12 10 * g.
Proof. exact next_least_squares. Qed.

(** Measured irradiance that is a multiple of the simulated one is returned itself. *)
Theorem C20_proportional : forall optimise n th k sim b,
  sorted_index sim -> noinf (vals sim) -> 0 < k -> 0 <= th -> (1 <= n)%nat ->
  is_percentile (qz 90) (finvals (vals sim)) b -> b <> 0 ->
  (exists t q, In (t, Fin q) sim /\ qz 200 < k * q) ->
  minimises optimise (mean_square (clear_rows (Fin k) (pairs_of (map_values (fun q => k * q) sim) sim))) (Fin k) ->
  irradiance_rescale optimise (map_values (fun q => k * q) sim) sim n Iterative (Fin th) = Ok (map_values (fun q => k * q) sim).
Proof. exact rescale_proportional. Qed.

Definition sim : series := [(0%Z, fz 300); (10%Z, fz 100)].
Definition exact2 : (fl -> fl) -> fl -> fl := fun _ _ => fz 2.
Example C20_example :
  irradiance_rescale exact2 (map_values (fun q => qz 2 * q) sim) sim 5 Iterative (ff 1 1000) = Ok [(0%Z, fz 600); (10%Z, fz 200)] /\
  irradiance_rescale (fun _ f => fadd f (Fin 1)) (map_values (fun q => qz 2 * q) sim) sim 5 Iterative (ff 1 1000) = Raise ConvergenceError /\
  irradiance_rescale (fun _ f => fz 7) sim sim 5 Iterative (ff 1 1000) = Ok sim.
Proof. repeat split; fcompute. Qed.

(** The hypotheses of C20_proportional can be met. *)
Example C20_hypotheses :
  is_percentile (qz 90) (finvals (vals sim)) (qz 280) /\
  minimises exact2 (mean_square (clear_rows (Fin (qz 2)) (pairs_of (map_values (fun q => qz 2 * q) sim) sim))) (Fin (qz 2)).
Proof.
  split.
  - assert (qz 280 = qquantile (qz 90 / qz 100) (finvals (vals sim))) as -> by qc_canon.
    apply qpercentile_spec; discriminate.
  - exists (qz 2). split; [reflexivity |]. intros y.
    assert (clear_rows (Fin (qz 2)) (pairs_of (map_values (fun q => qz 2 * q) sim) sim) = map fins [(qz 600, qz 300)]) as -> by fcompute.
    rewrite !mean_square_value by discriminate. cbn [fle]. apply qle_spec.
    assert (mean_sq [(qz 600, qz 300)] (qz 2) = 0) as -> by qc_canon. unfold mean_sq. cbn [map fst snd length].
    apply Qc_div_nonneg; [| reflexivity]. rewrite qsum_cons, qsum_nil, Qcplus_0_r. apply square_nonneg.
Qed.

Print Assumptions C20_iterative.
Print Assumptions C20_no_step.
Print Assumptions C20_single.
Print Assumptions C20_other.
Print Assumptions C20_no_data.
Print Assumptions C20_objective.
Print Assumptions C20_objective_single.
Print Assumptions C20_rows.
Print Assumptions C20_least_squares.
Print Assumptions C20_proportional.
