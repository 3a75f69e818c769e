(** C09: circular block uncertainty. *)

From Coq Require Import QArith Qcanon List ZArith Bool Permutation Sorted Lia.
From Verif.Base Require Import QcExtra ISort Quantile Fl Calendar.
From Verif.Spec Require Import Stats Time YoY.
From Verif.Model Require Import Utilities Bootstrap YearOnYear.
From Verif.Proofs Require Import StatsP FlP YoYP YoYP2 BootP.
From Verif.Props Require Import YoYDemo.
Import ListNotations.
Open Scope Qc_scope.

(** Data without an inferred frequency are refused whatever the draws. *)
Theorem C09_irregular : forall infer sortv choice starts rc ep cl L input ts,
  input <> [] -> Permutation (times input) ts -> Sorted Z.lt ts -> infer ts = None ->
  degradation_year_on_year infer sortv choice starts rc ep cl (CircularBlock L) input = Raise ValueError.
Proof. exact circular_guard_irregular. Qed.

(** So are blocks longer than a third of the data. *)
Theorem C09_long_block : forall infer sortv choice starts rc ep cl L input,
  input <> [] -> qz L > qz (Z.of_nat (length input)) / qz 3 ->
  degradation_year_on_year infer sortv choice starts rc ep cl (CircularBlock L) input = Raise ValueError.
Proof. exact circular_guard_long. Qed.

(** A successful run reports the rate found without uncertainty, and the interval and
    exceedance level of the rates refitted on bootstrap samples around the trend line
    [1 + rate/100 * mean elapsed years]. *)
Theorem C09_result : forall infer sortv choice starts rc ep cl L input o,
  (0 <= L)%Z -> NoDup (times input) ->
  (forall st, In st starts -> (length input <= length st * Z.to_nat L)%nat) ->
  degradation_year_on_year infer sortv choice starts rc ep cl (CircularBlock L) input = Ok o ->
  (exists o0, degradation_year_on_year infer sortv choice starts rc ep cl NoUncertainty input = Ok o0 /\
     yo_rate o0 = yo_rate o /\ yo_values o0 = yo_values o /\ yo_renorm o0 = yo_renorm o /\
     yo_usage o0 = yo_usage o) /\
  exists (data : series) (line : nat -> fl) metrics ci ex,
    yo_ci o = Some ci /\ yo_exceedance o = Some ex /\
    percentile_ci cl metrics = Ok ci /\ exceedance ep metrics = Ok ex /\
    length metrics = length starts /\
    Permutation (map (fun r => (fst r, fdiv (snd r) (yo_renorm o))) input) data /\
    Sorted Z.lt (times data) /\
    (forall i rate f l, (i < length input)%nat -> yo_rate o = Fin rate -> is_first input f -> is_last input l ->
       line i = Fin (1 + rate / qz 100 *
         (qz (Z.of_nat i) * (qz ((l - f) / days 1)%Z / qz (Z.of_nat (length input))) / qz 365))) /\
    forall k, (k < length starts)%nat -> exists sample o',
      degradation_year_on_year infer sortv choice [] false ep cl NoUncertainty sample = Ok o' /\
      yo_rate o' = nth k metrics NaN /\
      times sample = times data /\
      forall i, (i < length input)%nat ->
        exists j, j = ((nth (i / Z.to_nat L) (nth k starts []) 0 + i mod Z.to_nat L) mod length input)%nat /\
          (j < length input)%nat /\
          nth i (vals sample) NaN = fmul (line i) (fdiv (nth j (vals data) NaN) (line j)).
Proof. exact circular_block_spec. Qed.

Print Assumptions C09_irregular.
Print Assumptions C09_long_block.
Print Assumptions C09_result.

Example C09_example :
  demo_run false (CircularBlock 1) = Ok (demo_out false (CircularBlock 1)) /\
  yo_ci (demo_out false (CircularBlock 1)) <> None /\
  demo_run false (CircularBlock 2) = Raise ValueError.
Proof. split; [exact demo_ok_block |]. split; [vm_compute; discriminate | vm_compute; reflexivity]. Qed.
