(** C58: Theil-Sen fits of the soiling intervals *)

From Coq Require Import QArith Qcanon List ZArith Bool Arith Lia Permutation Sorted.
From Verif.Base Require Import QcExtra ISort Quantile Fl TimeSeries Calendar Rolling.
From Verif.Spec Require Import Stats Filters Theil Soiling.
From Verif.Model Require Import Soiling SoilingSummary.
From Verif.Proofs Require Import StatsP FiltersP2 SoilP SoilP2 SoilP4 SoilP5 SoilP8 SoilP9 SoilP10 SoilP11 SoilP12 SoilP13 SoilP14 EdgeP.
Import ListNotations.
Open Scope list_scope.
Open Scope Qc_scope.
From Verif.Spec Require Import SoilingTable SoilingSummary.
From Coq Require Import String.

(** The fit is the median of the slopes of all chords, with the bounds by rank around it. *)
Theorem C58_fit : forall margin pts, 0 <= margin pts ->
  (chords pts = [] -> theilslopes margin pts = (NaN, NaN, NaN, NaN)) /\
  (chords pts <> [] -> exists slope intercept low high,
     theilslopes margin pts = (Fin slope, Fin intercept, Fin low, Fin high) /\
     is_median (chords pts) slope /\
     (exists my mx, is_median (map snd pts) my /\ is_median (map (fun p => qz (fst p)) pts) mx /\ intercept = my - slope * mx) /\
     (exists s lower upper, let n := Z.of_nat (List.length s) in arranged (chords pts) s /\
        nearest_even ((qz n - margin pts) / qz 2) lower /\ nearest_even ((qz n + margin pts) / qz 2) upper /\
        low = nth (Z.to_nat (Z.max (lower - 1) 0)) s 0 /\ high = nth (Z.to_nat (Z.min upper (n - 1))) s 0) /\
     In low (chords pts) /\ In high (chords pts) /\ low <= slope /\ slope <= high).
Proof. exact theil_spec. Qed.

Theorem C58_exists : forall pts, chords pts <> [] <-> exists p r, In p pts /\ In r pts /\ fst p <> fst r.
Proof. exact chords_exist. Qed.

(** Points on a line are fitted exactly. *)
Theorem C58_line : forall margin pts a b, 0 <= margin pts -> (forall x y, In (x, y) pts -> y = a + b * qz x) -> (exists p r, In p pts /\ In r pts /\ fst p <> fst r) ->
  theilslopes margin pts = (Fin b, Fin a, Fin b, Fin b).
Proof. exact theil_line. Qed.

(** Data that never rise have no rising fit. *)
Theorem C58_sign : forall margin pts, 0 <= margin pts -> (forall x y x' y', In (x, y) pts -> In (x', y') pts -> (x < x')%Z -> y' <= y) ->
  forall slope intercept low high, theilslopes margin pts = (Fin slope, intercept, Fin low, Fin high) -> slope <= 0 /\ low <= 0 /\ high <= 0.
Proof. exact theil_sign. Qed.

(** The lower bound is not above the slope: profiles made with this fit stay at or below one. *)
Theorem C58_below : forall margin, (forall pts, 0 <= margin pts) -> bound_below (theil_fit margin).
Proof. exact theil_bound_below. Qed.

Theorem C58_values : forall margin pts, theil_fit margin (map (fun p => (fst p, Fin (snd p))) pts) = theilslopes margin pts.
Proof. exact theil_fit_finite. Qed.

(** An interval with a value that is not a number has no fit. *)
Theorem C58_missing : forall margin l t v, In (t, v) l -> (forall q, v <> Fin q) -> theil_fit margin l = (NaN, NaN, NaN, NaN).
Proof. exact theil_fit_missing. Qed.

(** The ranks are determined. *)
Theorem C58_nearest : forall x a b, nearest_even x a -> nearest_even x b -> a = b.
Proof. exact nearest_unique. Qed.

Definition five : list (Z * Qc) := [(0, qz 10); (1, qz 9); (2, qz 7); (4, qz 6); (5, qz 20)]%Z.
Example C58_example : chords five = [- qz 1; qf (-3) 2; - qz 1; qz 2; - qz 2; - qz 1; qf 11 4; qf (-1) 2; qf 13 3; qz 14] /\
  theilslopes (fun _ => qz 4) five = (ff (-3) 4, ff 21 2, fz (-1), ff 11 4) /\
  theilslopes (fun _ => qz 4) (firstn 1 five) = (NaN, NaN, NaN, NaN).
Proof. fcompute. Qed.
Example C58_hypotheses : chords five <> [] /\ (exists p r, In p five /\ In r five /\ fst p <> fst r) /\
  (forall x y x' y', In (x, y) (firstn 4 five) -> In (x', y') (firstn 4 five) -> (x < x')%Z -> y' <= y) /\ nearest_even (qf 5 2) 2 /\ nearest_even (qf 7 2) 4.
Proof.
  split; [vm_compute; discriminate |]. split; [exists (0%Z, qz 10), (1%Z, qz 9); cbn; split; [auto |]; split; [auto | discriminate] |]. split.
  - intros x y x' y' H H'. cbn in H, H'. repeat (destruct H as [E | H]; [injection E as <- <- | ]); try contradiction; repeat (destruct H' as [E | H']; [injection E as <- <- |]); try contradiction; intros L; try lia; vm_compute; discriminate.
  - split; (split; [vm_compute; discriminate |]; split; [vm_compute; discriminate |]; intros _; apply Z.even_spec; reflexivity).
Qed.

Example C58_missing_example : theil_fit (fun _ => qz 4) [(0, fz 1); (1, NaN); (2, fz 1)]%Z = (NaN, NaN, NaN, NaN).
Proof. reflexivity. Qed.

Print Assumptions C58_fit.
Print Assumptions C58_exists.
Print Assumptions C58_line.
Print Assumptions C58_sign.
Print Assumptions C58_below.
Print Assumptions C58_values.
Print Assumptions C58_nearest.
Print Assumptions C58_missing.
