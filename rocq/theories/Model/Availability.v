(** Model of AvailabilityAnalysis, /repo/rdtools/availability.py:190-618.

    A frame is a list of rows, each a list with one value per subsystem; thresholds, sizes
    and limits given as scalars or labelled series are lists in the order of the columns
    (or rows).  The index is strictly increasing, so that slices by label are slices by
    position.  [freq] is the width of [power_expected.index.freq], if it is set. *)

From Coq Require Import QArith Qcanon List ZArith Bool Arith.
From Verif.Base Require Import QcExtra ISort Quantile Fl TimeSeries Calendar Rolling.
From Verif.Model Require Import Utilities Interpolation Energy Clipping.
Import ListNotations.
Open Scope Qc_scope.

(** ** pandas pieces *)

Definition zip {A B C} (f : A -> B -> C) (a : list A) (b : list B) : list C :=
  map (fun p => f (fst p) (snd p)) (combine a b).
Definition fillna (d x : fl) : fl := if isnan x then d else x.
(** [clip(lower=..)], [clip(upper=..)]: missing values and missing bounds change nothing. *)
Definition clip_lower (lo x : fl) : fl := if flt x lo then lo else x.
Definition clip_upper (hi x : fl) : fl := if fgt x hi then hi else x.
Definition column (j : nat) (rows : list (list fl)) : list fl := map (fun r => nth j r NaN) rows.
Definition columns (n : nat) (rows : list (list fl)) : list (list fl) := map (fun j => column j rows) (seq 0 n).
Definition slice {A} (a b : nat) (l : list A) : list A := firstn (S b - a) (skipn a l).
(** [cumsum()]: missing values stay and are skipped. *)
Fixpoint cumsum_from (acc : fl) (l : list fl) : list fl :=
  match l with
  | [] => []
  | x :: l' => if isnan x then NaN :: cumsum_from acc l' else fadd acc x :: cumsum_from (fadd acc x) l'
  end.
Definition fcumsum (l : list fl) : list fl := cumsum_from (fz 0) l.
(** [resample(..).first()] and [.last()] skip missing values. *)
Definition ffirst (l : list fl) : fl := match dropna l with [] => NaN | x :: _ => x end.
Definition flast (l : list fl) : fl := ffirst (rev l).

(** ** __init__, 190-199 *)

Definition check_indexes (system : list Z) (others : list (list Z)) : result unit :=
  if forallb (same_index system) others then Ok tt else Raise ValueError.

(** ** _calc_loss_subsystem, 201-294 *)

(** 239-240 are [map (map (fillna 0))] and [clip_lower 0].  243-247. *)
Definition thresholds (n : nat) (given : option (list fl)) (rows : list (list fl)) : list fl :=
  match given with
  | Some l => l
  | None => map (fun c => fdiv (fquantile q99 c) (fz 1000)) (columns n rows)
  end.

(** 249. *)
Definition looks_online (thr row : list fl) : list bool := zip fgt row thr.
(** 250. *)
Definition reporting (thr row : list fl) : list fl := zip (fun (b : bool) x => if b then x else NaN) (looks_online thr row) row.

(** 251-257. *)
Definition sizes_of (n : nat) (given : option (list fl)) (thr : list fl) (rows : list (list fl)) : list fl :=
  match given with
  | Some l => l
  | None =>
    map fmedian (columns n (map (fun row => let r := reporting thr row in map (fun x => fdiv x (fmean r)) r) rows))
  end.

(** 266. *)
Definition fractions (sizes : list fl) : list fl := map (fun s => fdiv s (fsum sizes)) sizes.

(** 259-294 for one row. *)
Definition row_loss (n : nat) (thr sizes : list fl) (limit : option fl) (power : fl) (row : list fl) : fl :=
  let full := fmul (fmean (zip fdiv (reporting thr row) sizes)) (fz (Z.of_nat n)) in          (* 259-262 *)
  let delta := fsub (fz 1) (fdiv power full) in                                               (* 264 *)
  let smallest := fillna (fz 1)                                                               (* 267-274 *)
    (fminimum (zip (fun (b : bool) f => if b then f else NaN) (zip fle row thr) (fractions sizes))) in
  let online := looks_online thr row in
  let downtime := fgt delta (fmul (ff 3 4) smallest) && negb (forallb (fun b => b) online) in (* 276-277 *)
  let lowest := fsum (zip (fun (b : bool) f => fmul (fz (if b then 1 else 0)) f) online (fractions sizes)) in
  let f := clip_upper (fz 1) (clip_lower lowest (fdiv power full)) in                         (* 280-282 *)
  let loss := if downtime then fmul (fdiv (fsub (fz 1) f) f) power else fz 0 in               (* 283-284 *)
  fillna (fz 0)                                                                               (* 291 *)
    (match limit with                                                                         (* 286-289 *)
     | None => loss
     | Some m => if fgt (fadd loss power) m then clip_lower (fz 0) (fsub m power) else loss
     end).

(** The reporting mask and the loss. [limits]: one limit per row. *)
Definition calc_loss_subsystem (n : nat) (low_threshold relative_sizes : option (list fl)) (limits : option (list fl))
    (power_system : list fl) (power_subsystem : list (list fl)) : list (list bool) * list fl :=
  let rows := map (map (fillna (fz 0))) power_subsystem in
  let power := map (clip_lower (fz 0)) power_system in
  let thr := thresholds n low_threshold rows in
  let sizes := sizes_of n relative_sizes thr rows in
  let lim := match limits with None => map (fun _ => None) power | Some l => map (@Some fl) l end in
  (map (looks_online thr) rows,
   zip (fun pl row => row_loss n thr sizes (snd pl) (fst pl) row) (combine power lim) rows).

(** ** _calc_error_distributions, 296-385 *)

(** 318-322. *)
Definition normal_rows (loss_subsystem power_system power_expected : list fl) : list bool :=
  zip (fun lp e => feq (fst lp) (fz 0) && fgt (snd lp) (fz 0) && fgt e (fz 0))
      (combine loss_subsystem power_system) power_expected.
Definition pick {A} (b : list bool) (l : list A) : list A := map snd (filter fst (combine b l)).
(** 327-332. *)
Definition rescaled (normal : list bool) (power_system power_expected : list fl) : list fl :=
  map (fun x => fdiv x (fdiv (fsum (pick normal power_expected)) (fsum (pick normal power_system)))) power_expected.

(** [rolling(window).sum()]: complete windows without missing values. *)
Definition window_sum (n : nat) (l : list fl) : fl :=
  let w := map noninf (firstn n l) in
  if (length w =? n)%nat && forallb notnan w then fsum w else NaN.
(** 347-366; the windows are listed by their first row, the labels of [center=True] are
    not kept. *)
Definition window_errors (n : nat) (actual expected : list fl) : list fl :=
  zip (fun a e => fsub (fdiv (window_sum n a) (window_sum n e)) (fz 1)) (tails actual) (tails expected).
(** 342. [len] is positive. *)
Definition window_lengths (len : nat) : list nat := map (fun k => (2 ^ k)%nat) (seq 1 (Nat.log2 len - 1)).

(** [interp1d] with the end values outside the range (numpy's [interp]). *)
Fixpoint interp_from (x0 : Z) (y0 : fl) (l : list (Z * fl)) (x : Z) : fl :=
  match l with
  | [] => y0
  | (x1, y1) :: l' =>
    if (x <=? x0)%Z then y0
    else if (x <? x1)%Z then fadd y0 (fmul (fdiv (fsub y1 y0) (fz (x1 - x0))) (fz (x - x0)))
    else interp_from x1 y1 l' x
  end.
Definition interp1d (l : list (Z * fl)) (x : Z) : fl :=
  match l with [] => NaN | (x0, y0) :: l' => interp_from x0 y0 l' x end.

(** 357-363: a length without any complete window gives no row, hence no group. *)
Definition has_window (n : nat) (actual expected : list fl) : bool :=
  existsb (fun l => notnan (window_sum n l)) (tails actual ++ tails expected).
(** 348-385: the error bound as a function of the number of daylight rows. *)
Definition error_bound (q : Qc) (actual expected : list fl) : list (Z * fl) :=
  map (fun n => (Z.of_nat n, fquantile q (window_errors n actual expected)))
      (filter (fun n => has_window n actual expected) (window_lengths (length actual))).

Definition values_on (index : list Z) (s : series) : list fl := map (lookup s) index.

(** Rescaled expected power, its energy, and the two error bounds. *)
Record expectation : Type := Expectation {
  e_power : list fl; e_energy : list fl; e_lower : list (Z * fl); e_upper : list (Z * fl) }.

Definition calc_error_distributions (freq : option Z) (index : list Z) (loss_subsystem power_system power_expected : list fl)
    (quantiles : Qc * Qc) : result expectation :=
  let normal := normal_rows loss_subsystem power_system power_expected in
  let scaled := rescaled normal power_system power_expected in
  bind (energy_from_power freq (combine index scaled) None None RightLabeled) (fun ee =>       (* 334 *)
  bind (energy_from_power freq (combine index power_system) None None RightLabeled) (fun me => (* 336 *)
  let energy := values_on index ee in
  let expected := pick normal energy in
  let actual := pick normal (values_on index me) in
  match actual with
  | [] => Raise OverflowError                                                                 (* 342: log2(0) *)
  | _ =>
    match window_lengths (length actual) with
    | [] => Raise ValueError                                                                  (* 364: nothing to concatenate *)
    | _ => Ok (Expectation scaled energy (error_bound (fst quantiles) actual expected) (error_bound (snd quantiles) actual expected))
    end
  end)).

(** ** _calc_loss_system, 387-519 *)

(** 412-414. *)
Definition daylight_offline (masks : list (list bool)) (power_expected : list fl) : list (option bool) :=
  zip (fun m e => if fgt e (fz 0) then Some (negb (existsb (fun b => b) m)) else None) masks power_expected.
(** 416-419: values filled forward, [false] where there is nothing before. *)
Fixpoint filled_from (acc : bool) (l : list (option bool)) : list bool :=
  match l with
  | [] => []
  | x :: l' => let v := match x with Some b => b | None => acc end in v :: filled_from v l'
  end.
Definition full_outage (l : list (option bool)) : list bool :=
  zip orb (filled_from false l) (rev (filled_from false (rev l))).

(** 422-432, as positions. *)
Definition flag (o : list bool) (i : nat) : bool := nth i o false.
Definition outage_steps (o : list bool) : list bool :=
  map (fun i => flag o i) (filter (fun i => xorb (flag o i) (flag o (i - 1))) (seq 1 (length o - 1))).
Definition outage_runs (o : list bool) : list (nat * nat) :=
  let n := length o in
  let starts := filter (fun i => flag o i && negb (flag o (i - 1))) (seq 1 (n - 1)) in
  let ends := filter (fun i => flag o i && negb (flag o (S i))) (seq 0 (n - 1)) in
  let steps := outage_steps o in
  let starts := match steps with false :: _ => 0%nat :: starts | _ => starts end in
  let ends := match rev steps with true :: _ => ends ++ [(n - 1)%nat] | _ => ends end in
  combine starts ends.

Inductive outage_type : Type := Real | Comms | Unknown.
Record outage : Type := Outage {
  o_start : nat; o_end : nat; o_daylight : Z; o_expected : fl; o_energy_start : fl; o_energy_end : fl;
  o_actual : fl; o_ci_lower : fl; o_ci_upper : fl; o_type : outage_type; o_loss : fl }.

(** 434-491 for one outage. *)
Definition outage_info (e : expectation) (cumulative : list fl) (run : nat * nat) : outage :=
  let (a, b) := run in
  let daylight := Z.of_nat (length (filter (fun x => fgt x (fz 0)) (slice a b (e_power e)))) in      (* 437 *)
  let expected := fsum (slice a b (e_energy e)) in                                            (* 452 *)
  let before := match a with O => (length cumulative - 1)%nat | S a' => a' end in             (* 442: index -1 is the last *)
  let start := nth before cumulative NaN in
  let stop := nth b cumulative NaN in
  let actual0 := fsub stop start in                                                           (* 465-467 *)
  let actual := if flt actual0 (fmul (ff (-5) 100) expected) then NaN else actual0 in         (* 474-476 *)
  let ci_lower := fmul (fadd (fz 1) (interp1d (e_lower e) daylight)) expected in              (* 478-480 *)
  let ci_upper := fmul (fadd (fz 1) (interp1d (e_upper e) daylight)) expected in
  let type := if isnan actual then Unknown else if flt actual ci_lower then Real else Comms in       (* 484-488 *)
  let loss := match type with Real => fsub expected actual | Comms => fz 0 | Unknown => NaN end in   (* 489-493 *)
  Outage a b daylight expected start stop actual ci_lower ci_upper type loss.

(** [l] with the rows from [a] on replaced by the values of [seg]. *)
Definition put (a : nat) (seg l : list fl) : list fl := firstn a l ++ seg ++ skipn (a + length seg) l.

(** 501-516 for one outage: the lost power and the corrected meter. *)
Definition fill_outage (freq : option Z) (index : list Z) (power_expected : list fl) (o : outage)
    (state : list fl * list fl) : result (list fl * list fl) :=
  let (lost, corrected) := state in
  let a := o_start o in
  let b := o_end o in
  let subset := slice a b (combine index power_expected) in
  bind (energy_from_power freq subset None None RightLabeled) (fun energy =>                  (* 505 *)
  let total := fsum (vals energy) in
  let fill := map (fun x => fdiv (fmul x (o_loss o)) total) (vals subset) in                  (* 506-507 *)
  let produced := map (fun x => fadd (o_energy_start o) (fmul x (fdiv (o_actual o) total))) (fcumsum (vals energy)) in
  let segment := combine (times energy) produced in                                           (* 512-514 *)
  Ok (put a (zip fadd (slice a b lost) fill) lost,
      put a (values_on (times subset) segment) corrected)).                                   (* 515 *)

Fixpoint fill_outages (freq : option Z) (index : list Z) (power_expected : list fl) (os : list outage)
    (state : list fl * list fl) : result (list fl * list fl) :=
  match os with
  | [] => Ok state
  | o :: os' => bind (fill_outage freq index power_expected o state) (fill_outages freq index power_expected os')
  end.

(** The outages, the lost power and the corrected meter. *)
Definition calc_loss_system (freq : option Z) (index : list Z) (masks : list (list bool)) (e : expectation)
    (power_expected cumulative : list fl) : result (list outage * (list fl * list fl)) :=
  let runs := outage_runs (full_outage (daylight_offline masks power_expected)) in
  let os := map (outage_info e cumulative) runs in
  if match runs, e_lower e with _ :: _, [] => true | _, _ => false end then Raise IndexError  (* 376: values[0] *)
  else bind (fill_outages freq index power_expected os (map (fun _ => fz 0) index, cumulative)) (fun st => Ok (os, st)).

(** ** _combine_losses, 521-564 *)

(** A rollup period is a function from times to numbered periods; the result has one row
    for each number from that of the first time to that of the last. *)
Definition period_range (period : Z -> Z) (l : list Z) : list Z :=
  match l with
  | [] => []
  | t0 :: _ => let a := period t0 in
               map (fun k => (a + Z.of_nat k)%Z) (seq 0 (Z.to_nat (period (List.last l t0) - a + 1)))
  end.
Definition in_period (period : Z -> Z) (p : Z) (s : series) : list fl :=
  vals (filter (fun r => (period (fst r) =? p)%Z) s).
Definition rollup (period : Z -> Z) (f : list fl -> fl) (s : series) : series :=
  map (fun p => (p, f (in_period period p s))) (period_range period (times s)).

(** 561. *)
Definition availability_of (lost actual : fl) : fl := fsub (fz 1) (fdiv lost (fadd lost actual)).

(** Rows: period, lost production, actual production, availability. *)
Definition combine_losses (freq : option Z) (period : Z -> Z) (index : list Z)
    (loss_system loss_subsystem corrected : list fl) : result (list (Z * (fl * fl * fl))) :=
  let total := zip fadd loss_system loss_subsystem in                                         (* 545 *)
  bind (energy_from_power freq (combine index total) None None RightLabeled) (fun lost_energy =>     (* 554 *)
  let lost := rollup period fsum lost_energy in
  let cum := combine index corrected in
  let actual := rollup period (fun l => fsub (flast l) (ffirst l)) cum in                     (* 548-552 *)
  Ok (map (fun p => let l := lookup lost p in
                    let a := lookup actual p in (p, (l, a, availability_of l a)))
          (zset (map fst lost ++ map fst actual)))).

(** ** run, 566-618 *)

Record availability_result : Type := AvailabilityResult {
  r_masks : list (list bool); r_loss_subsystem : list fl; r_expectation : expectation; r_outages : list outage;
  r_loss_system : list fl; r_corrected : list fl; r_results : list (Z * (fl * fl * fl)) }.

Definition run (freq : option Z) (index : list Z) (n : nat) (power_system : list fl) (power_subsystem : list (list fl))
    (cumulative power_expected : list fl) (low_threshold relative_sizes limits : option (list fl)) (quantiles : Qc * Qc)
    (period : Z -> Z) : result availability_result :=
  let (masks, loss) := calc_loss_subsystem n low_threshold relative_sizes limits power_system power_subsystem in
  bind (calc_error_distributions freq index loss power_system power_expected quantiles) (fun e =>
  bind (calc_loss_system freq index masks e power_expected cumulative) (fun r =>
  bind (combine_losses freq period index (fst (snd r)) loss (snd (snd r))) (fun res =>
  Ok (AvailabilityResult masks loss e (fst r) (fst (snd r)) (snd (snd r)) res)))).
