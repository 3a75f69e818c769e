(** C06: errors and the median. *)

From Coq Require Import QArith Qcanon List ZArith Bool Permutation Sorted Lia.
From Verif.Base Require Import QcExtra ISort Quantile Fl Calendar.
From Verif.Spec Require Import Stats Time YoY.
From Verif.Model Require Import Utilities Bootstrap YearOnYear.
From Verif.Proofs Require Import StatsP FlP YoYP YoYP2 YoYP3 BootP UncertaintyP.
From Verif.Props Require Import YoYDemo.
Import ListNotations.
Open Scope Qc_scope.

(** A span shorter than two calendar years minus one step is refused. *)
Theorem C06_short_span : forall infer sortv choice starts rc ep cl m input,
  input <> [] -> NoDup (times input) -> span_short infer input ->
  degradation_year_on_year infer sortv choice starts rc ep cl m input = Raise ValueError.
Proof. exact yoy_short_raises. Qed.

(** No pair with both energies available is refused. *)
Theorem C06_no_pair : forall infer sortv choice starts rc ep cl m input,
  sorts_by_shifted sortv -> input <> [] ->
  (forall dt e r, In (dt, e) input -> is_partner input dt r -> e = NaN \/ snd r = NaN) ->
  degradation_year_on_year infer sortv choice starts rc ep cl m input = Raise ValueError.
Proof. exact yoy_no_pair_raises. Qed.

(** Otherwise the function succeeds (no recentering: the renormalising factor of
    arbitrary data may itself be missing); it never fails with anything else. *)
Theorem C06_otherwise_ok : forall infer sortv choice starts ep cl input,
  sorts_by_shifted sortv -> input <> [] -> NoDup (times input) -> no_clash input ->
  (forall t e, In (t, e) input -> e = NaN \/ exists q, e = Fin q) ->
  ((exists o, degradation_year_on_year infer sortv choice starts false ep cl NoUncertainty input = Ok o) <->
   ~ span_short infer input /\
   exists dt e r, In (dt, e) input /\ is_partner input dt r /\ e <> NaN /\ snd r <> NaN) /\
  ((forall o, degradation_year_on_year infer sortv choice starts false ep cl NoUncertainty input <> Ok o) ->
   degradation_year_on_year infer sortv choice starts false ep cl NoUncertainty input = Raise ValueError).
Proof. exact yoy_ok_iff. Qed.

(** The same for any timestamps: of the rows that land on the same instant one is chosen. *)
Theorem C06_otherwise_ok_leap : forall infer sortv choice starts ep cl input,
  sorts_by_shifted sortv -> input <> [] -> NoDup (times input) ->
  (forall t e, In (t, e) input -> e = NaN \/ exists q, e = Fin q) ->
  exists pick, partner_choice input pick /\
  ((exists o, degradation_year_on_year infer sortv choice starts false ep cl NoUncertainty input = Ok o) <->
   ~ span_short infer input /\ exists dt e r, In (dt, e) input /\ pick dt = Some r /\ e <> NaN /\ snd r <> NaN) /\
  ((forall o, degradation_year_on_year infer sortv choice starts false ep cl NoUncertainty input <> Ok o) ->
   degradation_year_on_year infer sortv choice starts false ep cl NoUncertainty input = Raise ValueError).
Proof. exact yoy_ok_pairs. Qed.

(** The rate is the median of the reported values, between the extremes. *)
Theorem C06_median : forall infer sortv choice starts rc ep cl m input o,
  degradation_year_on_year infer sortv choice starts rc ep cl m input = Ok o ->
  yo_values o <> [] /\
  forall qs, vals (yo_values o) = map Fin qs ->
    exists q, yo_rate o = Fin q /\ is_median qs q /\
      forall lo hi, is_min qs lo -> is_max qs hi -> lo <= q /\ q <= hi.
Proof. exact yoy_median. Qed.

(** With the simple bootstrap the main outputs are those without uncertainty; the interval
    and the exceedance value are percentiles of the medians of the resampled values. *)
Theorem C06_simple : forall infer sortv choice starts rc ep cl input o,
  degradation_year_on_year infer sortv choice starts rc ep cl Simple input = Ok o ->
  (exists o0, degradation_year_on_year infer sortv choice starts rc ep cl NoUncertainty input = Ok o0 /\
     yo_rate o0 = yo_rate o /\ yo_values o0 = yo_values o /\ yo_renorm o0 = yo_renorm o /\
     yo_usage o0 = yo_usage o /\ yo_ci o0 = None /\ yo_exceedance o0 = None) /\
  forall qs, vals (yo_values o) = map Fin qs ->
    choice (length qs) <> [] ->
    (forall d, In d (choice (length qs)) -> d <> [] /\ forall i, In i d -> (i < length qs)%nat) ->
    0 <= cl -> cl <= qz 100 -> 0 <= ep -> ep <= qz 100 ->
    exists ms lo hi ex,
      Forall2 (fun d m => is_median (map (fun i => nth i qs 0) d) m) (choice (length qs)) ms /\
      yo_ci o = Some (Fin lo, Fin hi) /\ yo_exceedance o = Some (Fin ex) /\
      is_percentile (qz 50 - cl / qz 2) ms lo /\ is_percentile (qz 50 + cl / qz 2) ms hi /\
      is_percentile (qz 100 - ep) ms ex.
Proof. exact simple_spec. Qed.

Print Assumptions C06_short_span.
Print Assumptions C06_no_pair.
Print Assumptions C06_otherwise_ok.
Print Assumptions C06_otherwise_ok_leap.
Print Assumptions C06_median.
Print Assumptions C06_simple.

(** The demo data pass; dropping the last year makes the span short, with an inferred
    step and without. *)
Definition short_input : series := tl demo_input.
Example C06_example :
  no_clash demo_input /\
  (exists o, demo_run false NoUncertainty = Ok o /\ yo_rate o = fz (-5)) /\
  NoDup (times short_input) /\ span_short demo_infer short_input /\
  span_short (fun _ => None) short_input.
Proof.
  assert (NoDup (times short_input)) as N.
  { pose proof demo_nodup as H. unfold demo_input, times in H. cbn [map] in H. inversion H. assumption. }
  split; [exact demo_no_clash |]. split.
  - exists (demo_out false NoUncertainty). split; [exact demo_ok | fcompute].
  - split; [exact N |]. split; apply span_short_iff; try discriminate; try exact N; vm_compute; reflexivity.
Qed.

(** The simple bootstrap on the demo data: three values, two resamplings of them. *)
Example C06_simple_example :
  demo_run true Simple = Ok (demo_out true Simple) /\
  length (yo_values (demo_out true Simple)) = 3%nat /\
  exists ci ex, yo_ci (demo_out true Simple) = Some ci /\ yo_exceedance (demo_out true Simple) = Some ex.
Proof. split; [exact demo_ok_simple |]. split; [vm_compute; reflexivity |]. vm_compute. eauto. Qed.

(** Data with 28 and 29 February. *)
Example C06_leap_example : leap_input <> [] /\ NoDup (times leap_input) /\ ~ no_clash leap_input /\
  (forall t e, In (t, e) leap_input -> e = NaN \/ exists q, e = Fin q) /\ (exists o, leap_run demo_sortv NoUncertainty = Ok o /\ yo_rate o = fz (-4)).
Proof.
  split; [discriminate |]. split; [exact leap_nodup |]. split; [exact leap_clash |]. split; [intros t e H; right; exact (leap_finite t e H) |].
  exists (leap_out demo_sortv NoUncertainty). split; [vm_compute; reflexivity | fcompute].
Qed.
