(** What the classifier of the clipping filter is shown. *)

From Coq Require Import QArith Qcanon List ZArith Bool Arith Sorted.
From Verif.Base Require Import QcExtra Quantile Fl TimeSeries Calendar Rolling.
From Verif.Spec Require Import Stats Energy Clipping.
From Verif.Model Require Import Clipping.
Import ListNotations.
Open Scope Qc_scope.

(** For a step in minutes: rows per window, rows of a centred window before the row, rows needed
    before and after the row. *)
Record reach : Type := Reach { size : nat; half : nat; back : nat; on : nat }.
Definition reach_of (freq : Z) : reach :=
  if (freq <? 10)%Z then Reach 5 2 3 4 else if (freq <? 60)%Z then Reach 3 1 2 2 else Reach 2 1 2 1.

Definition number_at (s : series) (j : nat) (q : Qc) : Prop := nth_error (vals s) j = Some (Fin q).

(** Row [i] has all the values it needs, and one of the window from it on is above the lowest. *)
Definition shown (freq : Z) (s : series) (i : nat) : Prop :=
  let R := reach_of freq in
  (back R <= i)%nat /\ (forall j, (i - back R <= j <= i + on R)%nat -> exists q, number_at s j q) /\
  exists lo j q, is_min (finvals (vals s)) lo /\ (i <= j < i + size R)%nat /\ number_at s j q /\ lo < q.

Definition average (l : list Qc) : Qc := qsum l / qz (Z.of_nat (length l)).
Definition spread (l : list Qc) : Qc := qsum (map (fun x => (x - average l) * (x - average l)) l) / qz (Z.of_nat (length l) - 1).

(** The sixteen numbers of row [i] at time [t]: [u] are the values moved to the range from 0 to 1,
    [d] their steps, [a] their centred averages. *)
Definition numbers_shown (freq : Z) (m : mounting) (s : series) (i : nat) (t : Z) (row : list fl) : Prop :=
  let R := reach_of freq in
  exists lo hi (u : nat -> Qc) top wlo whi med dlo dhi,
    is_min (finvals (vals s)) lo /\ is_max (finvals (vals s)) hi /\ lo < hi /\
    (forall j q, number_at s j q -> u j * (hi - lo) = q - lo) /\
    is_max (finvals (on_day t s)) (lo + top * (hi - lo)) /\
    is_min (map u (seq i (size R))) wlo /\ is_max (map u (seq i (size R))) whi /\ 0 < whi /\
    let a j := average (map u (seq (j - half R) (size R))) in
    let d j := u j - u (j - 1)%nat in
    let steps := map d (seq (i - half R) (size R)) in
    is_median steps med /\ is_min steps dlo /\ is_max steps dhi /\
    row = map Fin
      [d i; d (i + 1)%nat; a i - a (i - 1)%nat; a (i + 1)%nat - a i; qz (Z.max 5 freq); match m with Tracking => 1 | _ => 0 end;
       u i; a i; top; u i / (top + qf 1 100000); qz 200 * (whi - wlo) / (whi + wlo);
       spread steps; average steps; med; dlo; dhi].

(** Means of 5 minute bins counted from midnight. *)
Definition five : Z := 300000000000.
Definition bin_means (c r : series) : Prop :=
  (exists b0, times r = map (fun k => (five * (b0 + Z.of_nat k))%Z) (seq 0 (length r))) /\
  (forall t v, In (t, v) c -> exists b, In b (times r) /\ (b <= t < b + five)%Z) /\
  (forall b, hd_error (times r) = Some b \/ hd_error (rev (times r)) = Some b -> exists t v, In (t, v) c /\ (b <= t < b + five)%Z) /\
  forall b v, In (b, v) r ->
    let l := finvals (vals (filter (fun x => (b <=? fst x)%Z && (fst x <? b + five)%Z) c)) in
    (l = [] /\ v = NaN) \/ (l <> [] /\ v = Fin (average l)).
(** Rows [frame], at increasing times, are the ones shown for [s], in order. *)
Definition frame_shown (freq : Z) (m : mounting) (s : series) (frame : list (Z * list fl)) : Prop :=
  exists rows, StronglySorted lt rows /\ (forall i, In i rows <-> shown freq s i) /\
    Forall2 (fun i r => nth_error (times s) i = Some (fst r) /\ numbers_shown freq m s i (fst r) (snd r)) rows frame.
(** The series from which the numbers are computed. *)
Definition shown_series (freq : Z) (regular s : series) : Prop :=
  if (freq <? 5)%Z then bin_means regular s else s = regular.

(** Bounds of the sixteen numbers. *)
Definition within (x : fl) (b : Qc * Qc) : Prop := exists q, x = Fin q /\ fst b <= q /\ q <= snd b.
Definition bounds_shown (freq : Z) : list (Qc * Qc) :=
  let step := (- (1), 1) in let part := (0, 1) in
  [step; step; step; step; (qz 5, qz (Z.max 5 freq)); part; part; part; part; part; (0, qz 200); (0, qz 8); step; step; step; step].
