(** C04: units of the input. *)

From Coq Require Import QArith Qcanon List ZArith Bool Permutation Sorted Lia.
From Verif.Base Require Import QcExtra ISort Quantile Fl Calendar.
From Verif.Spec Require Import Stats Time YoY Filters.
From Verif.Model Require Import Utilities Bootstrap YearOnYear.
From Verif.Proofs Require Import StatsP FlP YoYP YoYP2 BootP FiltersP UncertaintyP.
From Verif.Props Require Import YoYDemo.
Import ListNotations.
Open Scope Qc_scope.

(** Multiplying every energy by a positive constant changes nothing but the
    renormalising factor; errors are the same too. *)
Theorem C04_units : forall k, 0 < k ->
  forall infer sortv choice starts ep cl m s,
    degradation_year_on_year infer sortv choice starts true ep cl m
      (map (fun r => (fst r, fmul (Fin k) (snd r))) s) =
    match degradation_year_on_year infer sortv choice starts true ep cl m s with
    | Ok o => Ok (mk_yoy_out (yo_rate o) (yo_values o) (fmul (Fin k) (yo_renorm o)) (yo_usage o)
                             (yo_ci o) (yo_exceedance o))
    | Raise e => Raise e
    end.
Proof. exact yoy_scale. Qed.

(** Without recentering the factor is 1; with recentering it is the median of the values of
    the first 364 days that exceed a thousandth of their 99th percentile (missing values
    count as zero in the percentile), missing if there are none. *)
Theorem C04_factor : forall infer sortv choice starts rc ep cl m input o,
  degradation_year_on_year infer sortv choice starts rc ep cl m input = Ok o ->
  (rc = false -> yo_renorm o = Fin 1) /\
  (rc = true -> forall first part rest l, noinf (vals input) ->
     is_first input first -> Permutation input (part ++ rest) ->
     (forall t, In t (times part) -> (t <= first + days 364)%Z) ->
     (forall t, In t (times rest) -> (first + days 364 < t)%Z) ->
     robust_part (qf 99 100) (vals part) l ->
     (l = [] -> yo_renorm o = NaN) /\
     (l <> [] -> exists v, yo_renorm o = Fin v /\ is_median l v)).
Proof. exact factor_spec. Qed.

Print Assumptions C04_units.
Print Assumptions C04_factor.

(** The demo run succeeds with recentering and uncertainty; in units 1000 times smaller the factor is 1000. *)
Example C04_example :
  demo_run true Simple = Ok (demo_out true Simple) /\
  yo_renorm (demo_out true Simple) = fz 1 /\ 0 < qz 1000.
Proof. split; [exact demo_ok_simple |]. split; [fcompute | reflexivity]. Qed.

(** Only the row of 29 February 2012 and the one of 28 February 2013 (365 days later, so
    already outside) are near the boundary: the first 364 days hold one row. *)
Example C04_factor_example :
  is_first demo_input (at_date 2012 2 29) /\
  Permutation demo_input ([(at_date 2012 2 29, ff 100 100)] ++
    [(at_date 2014 2 28, ff 90 100); (at_date 2013 2 28, ff 95 100); (at_date 2013 3 5, ff 94 100);
     (at_date 2013 7 1, NaN)]) /\
  (at_date 2012 2 29 + days 364 < at_date 2013 2 28)%Z /\
  robust_part (qf 99 100) [ff 100 100] [qf 100 100].
Proof.
  split; [| split; [| split]].
  - split; [cbn; auto |]. intros t H. cbn [demo_input times map fst In] in H.
    repeat (destruct H as [<- | H]; [vm_compute; discriminate |]). destruct H.
  - apply perm_swap.
  - vm_compute. reflexivity.
  - exists (qf 100 100). split.
    + exists [qf 100 100], 0%nat, 0. split; [split; [apply Permutation_refl | repeat constructor] |].
      split; [apply qle_spec; reflexivity |]. split; [reflexivity |]. split; [qc_canon |].
      split; [cbn; lia | qc_canon].
    + vm_compute. f_equal. 
Qed.
