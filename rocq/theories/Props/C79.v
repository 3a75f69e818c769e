(** C79: the energy of a plant is the sum of the energies of its inverters *)

From Coq Require Import QArith Qcanon List ZArith Bool Arith Lia Permutation Sorted.
From Verif.Base Require Import QcExtra ISort Quantile Fl TimeSeries.
From Verif.Spec Require Import Superposition.
From Verif.Model Require Import Interpolation Energy Normalization.
From Verif.Proofs Require Import SuperP SuperP2 NormLinP AggLinP NormMonoP.
Import ListNotations.
Open Scope list_scope.
Open Scope Qc_scope.

(** The energy of a weighted sum of two power series with values at the same times is the weighted sum of their energies, known at the same times; the function fails for one exactly if it fails for the other and for the sum. *)
Theorem C79_energy : forall freq target max pt x y, side_by_side x y ->
  match energy_from_power freq x target max pt, energy_from_power freq y target max pt with
  | Ok u, Ok v => side_by_side u v /\ forall a b, energy_from_power freq (weighted a x b y) target max pt = Ok (weighted a u b v)
  | Raise e, Raise e' => e = e' /\ forall a b, energy_from_power freq (weighted a x b y) target max pt = Raise e
  | _, _ => False
  end.
Proof. exact energy_linear. Qed.

(** The same for interpolation to any target. *)
Theorem C79_interpolated : forall tz tz' target max x y, side_by_side x y ->
  match interpolate tz tz' x target max, interpolate tz tz' y target max with
  | Ok u, Ok v => side_by_side u v /\ forall a b, interpolate tz tz' (weighted a x b y) target max = Ok (weighted a u b v)
  | Raise e, Raise e' => e = e' /\ forall a b, interpolate tz tz' (weighted a x b y) target max = Raise e
  | _, _ => False
  end.
Proof. exact interpolate_linear. Qed.

(** Any number of inverters. *)
Theorem C79_plant : forall freq target max pt others x, Forall (side_by_side x) others -> others <> [] ->
  match energy_from_power freq x target max pt with
  | Ok u => exists us, Forall2 (fun y v => energy_from_power freq y target max pt = Ok v /\ side_by_side u v) others us /\
                       energy_from_power freq (total x others) target max pt = Ok (total u us)
  | Raise e => Forall (fun y => energy_from_power freq y target max pt = Raise e) others /\
               energy_from_power freq (total x others) target max pt = Raise e
  end.
Proof. exact (fun freq target max pt => linear_total _ (energy_linear freq target max pt)). Qed.

(** Power that is nowhere negative gives energy that is nowhere negative, whatever the order of the times. *)
Theorem C79_not_negative : forall freq power target m pt out,
  (forall w, target = Some w \/ freq = Some w -> (0 <= w)%Z) -> nowhere_negative power ->
  energy_from_power freq power target m pt = Ok out -> nowhere_negative out.
Proof. exact energy_not_negative. Qed.

(** More power, more energy. *)
Theorem C79_monotone : forall freq x y target m pt,
  (forall w, target = Some w \/ freq = Some w -> (0 <= w)%Z) -> nowhere_above x y ->
  match energy_from_power freq x target m pt, energy_from_power freq y target m pt with
  | Ok u, Ok v => nowhere_above u v
  | Raise e, Raise e' => e = e'
  | _, _ => False
  end.
Proof. exact energy_monotone. Qed.

(** Interpolation keeps order, too. *)
Theorem C79_interpolated_monotone : forall tz tz' x y target m, nowhere_above x y ->
  match interpolate tz tz' x target m, interpolate tz tz' y target m with
  | Ok u, Ok v => nowhere_above u v
  | Raise e, Raise e' => e = e'
  | _, _ => False
  end.
Proof. exact interpolate_monotone. Qed.

(** Normalized energy, for the same expected power and irradiance: the insolation is the same, and where the
    normalized energies are not infinite, that of a weighted sum is their weighted sum. *)
Theorem C79_normalized : forall infer pf mf expected poa kind x y, side_by_side x y ->
  let normalized p := normalize_with_expected_power infer pf mf p expected poa kind in
  match normalized x, normalized y with
  | Ok (u, i), Ok (v, j) => i = j /\ times u = times v /\
      (noinf (vals u) -> noinf (vals v) -> side_by_side u v /\ forall a b, normalized (weighted a x b y) = Ok (weighted a u b v, i))
  | Raise e, Raise e' => e = e' /\ forall a b, normalized (weighted a x b y) = Raise e
  | _, _ => False
  end.
Proof. exact normalized_linear. Qed.

(** Normalization with PVWatts. *)
Theorem C79_pvwatts : forall infer ef pf poa rated tcell ref tref gamma x y, side_by_side x y ->
  let normalized e := normalize_with_pvwatts infer ef pf e poa rated tcell ref tref gamma in
  match normalized x, normalized y with
  | Ok (u, i), Ok (v, j) => i = j /\ times u = times v /\
      (noinf (vals u) -> noinf (vals v) -> side_by_side u v /\ forall a b, normalized (weighted a x b y) = Ok (weighted a u b v, i))
  | Raise e, Raise e' => e = e' /\ forall a b, normalized (weighted a x b y) = Raise e
  | _, _ => False
  end.
Proof. exact pvwatts_linear. Qed.

(** Insolation-weighted averages of any width. *)
Theorem C79_daily : forall w insolation x y, side_by_side x y -> times x = times insolation -> noinf (vals insolation) ->
  let daily s := aggregation_insol s insolation w in
  times (daily x) = times (daily y) /\
  (noinf (vals (daily x)) -> noinf (vals (daily y)) -> side_by_side (daily x) (daily y) /\ forall a b, daily (weighted a x b y) = weighted a (daily x) b (daily y)).
Proof. exact aggregation_linear. Qed.

(** More power, more normalized energy, if the expected power is nowhere negative. *)
Theorem C79_normalized_monotone : forall infer pf mf expected poa kind x y u v i j,
  (forall w, check_series_frequency infer pf x = Ok w -> (0 <= w)%Z) -> nowhere_above x y -> nowhere_negative expected ->
  normalize_with_expected_power infer pf mf x expected poa kind = Ok (u, i) ->
  normalize_with_expected_power infer pf mf y expected poa kind = Ok (v, j) ->
  noinf (vals u) -> noinf (vals v) -> nowhere_above u v.
Proof. exact normalized_monotone. Qed.
Theorem C79_daily_monotone : forall w insolation x y, nowhere_above x y -> times x = times insolation -> nowhere_negative insolation ->
  noinf (vals (aggregation_insol x insolation w)) -> noinf (vals (aggregation_insol y insolation w)) ->
  nowhere_above (aggregation_insol x insolation w) (aggregation_insol y insolation w).
Proof. exact aggregation_monotone. Qed.

(** Two inverters reporting every 15 minutes, with the same missing report; hourly energy. *)
Definition quarter (k : Z) : Z := (k * 900 * 1000000000)%Z.
Definition inverter1 : series := [(quarter 0, fz 4); (quarter 1, fz 8); (quarter 2, NaN); (quarter 3, fz 12); (quarter 4, fz 4)].
Definition inverter2 : series := [(quarter 0, fz 2); (quarter 1, fz 2); (quarter 2, NaN); (quarter 3, fz 6); (quarter 4, fz 10)].
Definition plant_energy (x : series) (pt : power_type) : result series := energy_from_power None x (Some (quarter 4)) (Some (qz (quarter 2))) pt.
Example c79_inverters : side_by_side inverter1 inverter2 /\
  match plant_energy inverter1 Instantaneous, plant_energy inverter2 Instantaneous, plant_energy (weighted (qz 3) inverter1 (- (1)) inverter2) Instantaneous with
  | Ok [(t, u)], Ok [(t', v)], Ok [(t'', w)] => ((t =? t')%Z && (t =? t'')%Z && feq u (Fin (qz 17 / qz 2)) && feq v (Fin (qz 9 / qz 2)) && feq w (fz 21)) = true
  | _, _, _ => False
  end.
Proof.
  split.
  - unfold side_by_side, inverter1, inverter2. repeat (apply Forall2_cons; [split; [reflexivity |]; first [left; split; reflexivity | right; do 2 eexists; split; reflexivity] |]). apply Forall2_nil.
  - vm_compute. reflexivity.
Qed.
Example c79_plant : Forall (side_by_side inverter1) [inverter2; inverter1] /\ total inverter1 [inverter2; inverter1] <> inverter1 /\
  match plant_energy (total inverter1 [inverter2; inverter1]) RightLabeled with Ok [(_, u)] => feq u (fz 24) | _ => false end = true.
Proof.
  split.
  - repeat apply Forall_cons; try apply Forall_nil; unfold side_by_side, inverter1, inverter2;
      repeat (apply Forall2_cons; [split; [reflexivity |]; first [left; split; reflexivity | right; do 2 eexists; split; reflexivity] |]); apply Forall2_nil.
  - split; [intros H; apply (f_equal (fun s => match s with (_, v) :: _ => feq v (fz 4) | _ => false end)) in H; vm_compute in H; discriminate | vm_compute; reflexivity].
Qed.
(** A weaker third inverter. *)
Definition inverter3 : series := [(quarter 0, fz 2); (quarter 1, fz 8); (quarter 2, NaN); (quarter 3, fz 1); (quarter 4, fz 0)].
Example c79_ordered : nowhere_above inverter3 inverter1 /\ nowhere_negative inverter3 /\
  match plant_energy inverter3 RightLabeled with Ok [(_, u)] => feq u (Fin (qz 5 / qz 2)) | _ => false end = true.
Proof.
  split; [| split; [| vm_compute; reflexivity]].
  - unfold nowhere_above, inverter1, inverter3.
    repeat (apply Forall2_cons; [split; [reflexivity |]; first [left; split; reflexivity | right; do 2 eexists; split; [reflexivity |]; split; [reflexivity |]; vm_compute; discriminate] |]). apply Forall2_nil.
  - unfold nowhere_negative, inverter3.
    repeat (apply Forall_cons; [first [left; reflexivity | right; eexists; split; [reflexivity |]; vm_compute; discriminate] |]). apply Forall_nil.
Qed.

(** Normalized to an expected power of 8, then 16; the two quarters around the missing report are unknown. *)
Definition expected_power : series := [(quarter 0, fz 8); (quarter 1, fz 8); (quarter 2, fz 8); (quarter 3, fz 16); (quarter 4, fz 16)].
Definition light : series := map (fun r => (fst r, fz 800)) expected_power.
Definition normal_plant (x : series) : result (series * series) :=
  normalize_with_expected_power (fun _ => Some (quarter 1)) None None x expected_power light PvPower.
Definition known (l : list Qc) (s : series) : bool :=
  (length s =? 4)%nat && forallb (fun p => feq (snd (fst p)) (Fin (snd p))) (combine (filter (fun r => negb (isnan (snd r))) s) l) &&
  (length (filter (fun r => negb (isnan (snd r))) s) =? length l)%nat.
Example c79_normalized :
  match normal_plant inverter1, normal_plant inverter2, normal_plant (weighted (qz 3) inverter1 (- (1)) inverter2) with
  | Ok (u, i), Ok (v, _), Ok (w, _) => known [1; 1 / qz 4] u && known [1 / qz 4; qz 5 / qz 8] v && known [qz 11 / qz 4; 1 / qz 8] w && (length i =? 4)%nat
  | _, _, _ => false
  end = true.
Proof. vm_compute. reflexivity. Qed.

(** Averages over half an hour, weighted with an insolation of 1, 3, 1, 1 and 2; and PVWatts with energy. *)
Definition sun : series := combine (times inverter1) [fz 1; fz 3; fz 1; fz 1; fz 2].
Definition half_hours (x : series) : series := aggregation_insol x sun (quarter 2).
Definition shows (l : list Qc) (s : series) : bool := (length s =? length l)%nat && forallb (fun p => feq (snd (fst p)) (Fin (snd p))) (combine s l).
Example c79_daily : times inverter1 = times sun /\ noinf (vals sun) /\
  (shows [qz 7; qz 6; qz 4] (half_hours inverter1) && shows [qz 2; qz 3; qz 10] (half_hours inverter2) && shows [qz 19; qz 15; qz 2] (half_hours (weighted (qz 3) inverter1 (- (1)) inverter2))) = true.
Proof.
  split; [reflexivity|]. split; [|vm_compute; reflexivity]. intros x H. vm_compute in H. repeat destruct H as [<-|H]; try (split; discriminate). destruct H.
Qed.
Definition watts (x : series) : result (series * series) :=
  normalize_with_pvwatts (fun _ => Some (quarter 1)) None None x light (fz 10) None (fz 1000) (fz 25) None.
Example c79_pvwatts :
  match watts inverter1, watts inverter2, watts (weighted (qz 3) inverter1 (- (1)) inverter2) with
  | Ok (u, _), Ok (v, _), Ok (w, _) =>
      let values z := filter (fun r => negb (isnan (snd r))) z in
      (length w =? 5)%nat && shows [qz 4; qz 6; qz 2] (values u) && shows [qz 1; qz 3; qz 5] (values v) && shows [qz 11; qz 15; qz 1] (values w)
  | _, _, _ => false
  end = true.
Proof. vm_compute. reflexivity. Qed.

(** The weaker third inverter, normalized and averaged. *)
Example c79_weaker : nowhere_negative expected_power /\ nowhere_negative sun /\
  match normal_plant inverter3, normal_plant inverter1 with Ok (u, _), Ok (v, _) => known [1; 0] u && known [1; 1 / qz 4] v | _, _ => false end = true /\
  shows [qz 13 / qz 2; 1 / qz 2; 0] (half_hours inverter3) = true.
Proof.
  split; [|split; [|split; vm_compute; reflexivity]]; unfold expected_power, sun, inverter1; cbn [times map combine fst];
    repeat (apply Forall_cons; [right; eexists; split; [reflexivity |]; vm_compute; discriminate |]); apply Forall_nil.
Qed.

(** Without the condition on infinite values it is false: where no power is expected the values are infinite,
    and zero times an infinite value is unknown. *)
Theorem C79_infinite_refuted : ~ (forall infer pf mf expected poa kind x y u v i, side_by_side x y ->
  normalize_with_expected_power infer pf mf x expected poa kind = Ok (u, i) ->
  normalize_with_expected_power infer pf mf y expected poa kind = Ok (v, i) ->
  forall a b, normalize_with_expected_power infer pf mf (weighted a x b y) expected poa kind = Ok (weighted a u b v, i)).
Proof.
  intros H.
  specialize (H (fun _ => Some (quarter 1)) None None (map (fun r => (fst r, fz 0)) expected_power) light PvPower inverter1 inverter2).
  match type of H with forall u v i, _ -> ?x = _ -> ?y = _ -> _ =>
    specialize (H (match x with Ok (u, _) => u | _ => [] end) (match y with Ok (u, _) => u | _ => [] end) (match x with Ok (_, i) => i | _ => [] end)) end.
  specialize (H (proj1 c79_inverters) ltac:(vm_compute; reflexivity) ltac:(vm_compute; reflexivity) 0 1).
  apply (f_equal (fun r => match r with Ok ((_, x) :: _, _) => isnan x | _ => false end)) in H. vm_compute in H. discriminate.
Qed.
Print Assumptions C79_infinite_refuted.

(** The values must be missing together: an inverter that misses a report makes the energies
    of the inverters and the energy of the plant different, although all are reported. *)
Theorem C79_gaps_refuted : ~ (forall x y target max pt u v w, times x = times y ->
  energy_from_power None x target max pt = Ok [u] -> energy_from_power None y target max pt = Ok [v] -> energy_from_power None (added x y) target max pt = Ok [w] ->
  snd w = fadd (snd u) (snd v)).
Proof.
  intros H.
  specialize (H [(quarter 0, fz 1); (quarter 2, NaN); (quarter 4, fz 3)] [(quarter 0, fz 2); (quarter 2, fz 2); (quarter 4, fz 4)] (Some (quarter 4)) (Some (qz (quarter 4))) RightLabeled).
  match type of H with forall u v w, _ -> ?a = _ -> ?b = _ -> ?c = _ -> _ =>
    specialize (H (match a with Ok [u] => u | _ => (0%Z, NaN) end) (match b with Ok [u] => u | _ => (0%Z, NaN) end) (match c with Ok [u] => u | _ => (0%Z, NaN) end)) end.
  specialize (H eq_refl ltac:(vm_compute; reflexivity) ltac:(vm_compute; reflexivity) ltac:(vm_compute; reflexivity)).
  apply (f_equal (fun v => feq v (fz 7))) in H. vm_compute in H. discriminate.
Qed.
Print Assumptions C79_gaps_refuted.

Print Assumptions C79_energy.
Print Assumptions C79_interpolated.
Print Assumptions C79_plant.
Print Assumptions C79_not_negative.
Print Assumptions C79_monotone.
Print Assumptions C79_interpolated_monotone.
Print Assumptions C79_normalized.
Print Assumptions C79_pvwatts.
Print Assumptions C79_daily.
Print Assumptions C79_normalized_monotone.
Print Assumptions C79_daily_monotone.
