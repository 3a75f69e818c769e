(** rdtools/soiling.py: CODSAnalysis and soiling_cods. *)

From Coq Require Import QArith Qcanon List ZArith Bool Arith String.
From Verif.Base Require Import QcExtra ISort Quantile Fl TimeSeries Calendar Rolling.
From Verif.Model Require Import Soiling CodsTools CodsKalman.
Import ListNotations.
Open Scope list_scope.
Open Scope Qc_scope.

(** ** CODSAnalysis.__init__, 1171-1181 *)

(** [daily]: the frequency attribute of the index is 'D'.  [isna().idxmin()] of missing values
    only is the first row. *)
Definition cods_init (daily : bool) (s : series) : result series :=
  match s with
  | [] => Raise IndexError
  | r :: _ =>
    let kept := if isnan (snd r) then match drop_missing s with [] => s | k => k end else s in
    if daily then Ok kept else Raise ValueError
  end.

(** ** iterative_signal_decomposition, 1183-1533 *)

(** 1359-1477: the schedule.  [step component perfect_cleaning ic] is one fit with the metric
    reached; [left] is the number of rounds before [max_iterations].  The fits done are
    returned with the metrics. *)
Definition improvement (n : nat) (metrics : list fl) : fl :=
  let now := nth (List.length metrics - 1) metrics NaN in
  let before := nth (List.length metrics - 1 - n) metrics NaN in
  fdiv (fsub before now) before.
(** 1462-1463. *)
Definition reorder (n ic : nat) (order : list string) : list string :=
  map (fun i => nth ((i + n - 1 - (ic - 1) mod n) mod n) order ""%string) (seq 0 n).

Fixpoint iterate {St : Type} (step : string -> bool -> nat -> St -> result (St * fl)) (n max : nat) (criterion : fl)
    (left ic : nat) (order : list string) (perfect : bool) (change : nat) (metrics : list fl) (st : St)
    : list (string * bool) * list fl * result St :=
  match left with
  | O => ([], metrics, Ok st)
  | S left' =>
    let ic := S ic in
    let component := nth ((ic - 1) mod n) order ""%string in
    match step component perfect ic st with
    | Raise e => ([(component, perfect)], metrics, Raise e)
    | Ok (st', metric) =>
      let metrics := metrics ++ [metric] in
      let small := flt (improvement n metrics) criterion in
      let '(fits, ms, r) :=
        if (n <=? ic)%nat then
          if perfect && ((max <=? 2 * ic)%nat || small)
          then iterate step n max criterion left' ic (reorder n ic order) false ic metrics st'
          else if negb perfect && ((max <=? ic)%nat || ((change + n <=? ic)%nat && small))
          then ([], metrics, Ok st')
          else iterate step n max criterion left' ic order perfect change metrics st'
        else iterate step n max criterion left' ic order perfect change metrics st' in
      ((component, perfect) :: fits, ms, r)
    end
  end.

(** 1330-1336: [order] without 'Rd' for the STL method; 'SR' must be in it. *)
Definition used_order (stl : bool) (order : list string) : result (list string) :=
  let order := if stl then filter (fun c => negb (String.eqb c "Rd")) order else order in
  if existsb (String.eqb "SR") order then Ok order else Raise ValueError.

(** Element by element arithmetic of columns on the same index. *)
Definition cols (f : fl -> fl -> fl) (a b : list fl) : list fl := map (fun p => f (fst p) (snd p)) (combine a b).

(** _RMSE, 2615-2619; [root] is the square root. *)
Definition rmse (root : fl -> fl) (y_true y_pred : list fl) : fl :=
  root (fmean (map (fun p => let d := fsub (snd p) (fst p) in fmul d d)
                   (filter (fun p => notnan (snd p)) (combine y_true y_pred)))).

(** External fits: the Kalman filter (with cleaning events, [perfect_cleaning] and pruning sensitivity), the
    smoothed seasonal part and the trend of the STL decomposition, the year-on-year rate. *)
Record fits : Type := Fits {
  fit_soiling : list fl -> list bool -> bool -> fl -> result kalman_frame;
  fit_season : list fl -> result (list fl * list fl);
  fit_rate : list fl -> result fl;
  fit_root : fl -> fl }.

Record cods_state : Type := CS {
  c_ratio : list fl; c_season : list fl; c_trend : list fl; c_frame : option kalman_frame; c_rate : fl;
  c_residuals : list fl; c_shift : fl; c_events : list bool; c_sensitivity : fl; c_pruning : fl }.

(** 1436-1443. *)
Definition recombine (F : fits) (pi : list fl) (s : cods_state) : cods_state * fl :=
  let total := cols fmul (cols fmul (c_trend s) (c_season s)) (c_ratio s) in
  let residuals := cols fdiv pi total in
  let shift := fmean residuals in
  (CS (c_ratio s) (c_season s) (c_trend s) (c_frame s) (c_rate s) residuals shift (c_events s) (c_sensitivity s) (c_pruning s),
   rmse (fit_root F) pi (map (fun x => fmul x shift) total)).

(** 1363-1393. *)
Definition soiling_step (F : fits) (ffill : bool) (pi : list fl) (perfect : bool) (ic : nat) (s : cods_state) : result cods_state :=
  bind (if (2 <? ic)%nat then
          match c_frame s with
          | None => Raise IndexError
          | Some k =>
            let sens := fmul (c_sensitivity s) (ff 6 5) in
            let '(ce, rm9) := ce_detection ffill 9 sens (c_residuals s) in
            bind (collapse_cleaning_events 5 ce (diffs rm9)) (fun ce =>
            Ok (map (fun p => fst p || snd p) (combine (k_events k) ce), sens, fdiv (c_pruning s) (ff 11 10)))
          end
        else Ok (c_events s, c_sensitivity s, c_pruning s)) (fun p =>
  let '(pce, sens, prune) := p in
  let input := map (fun x => fdiv x (c_shift s)) (cols fdiv (cols fdiv pi (c_trend s)) (c_season s)) in
  bind (fit_soiling F input pce perfect prune) (fun k =>
  Ok (CS (k_ratio k) (c_season s) (c_trend s) (Some k) (c_rate s) (c_residuals s) (c_shift s) pce sens prune))).
(** 1395-1420; the interpolation and the logarithm belong to [fit_season]. *)
Definition season_step (F : fits) (stl : bool) (index : list Z) (pi : list fl) (s : cods_state) : result cods_state :=
  bind (fit_season F (cols fdiv pi (c_ratio s))) (fun p =>
  let '(smooth, trend) := p in
  bind (force_periodicity (combine index smooth) index) (fun season =>
  if stl then
    let trend := map (fun x => fdiv x (at_row trend 0)) trend in
    bind (fit_rate F trend) (fun rate =>
    Ok (CS (c_ratio s) (vals season) trend (c_frame s) rate (c_residuals s) (c_shift s) (c_events s) (c_sensitivity s) (c_pruning s)))
  else Ok (CS (c_ratio s) (vals season) (c_trend s) (c_frame s) (c_rate s) (c_residuals s) (c_shift s) (c_events s) (c_sensitivity s) (c_pruning s)))).
(** 1422-1434: the trend 1 + day * rate / 100 / 365. *)
Definition linear_trend (n : nat) (rate : fl) : list fl :=
  map (fun i => fadd (fz 1) (fdiv (fdiv (fmul (fz (Z.of_nat i)) rate) (fz 100)) (fz 365))) (seq 0 n).
Definition rate_step (F : fits) (pi : list fl) (s : cods_state) : result cods_state :=
  bind (fit_rate F (cols fdiv (cols fdiv pi (c_season s)) (c_ratio s))) (fun rate =>
  Ok (CS (c_ratio s) (c_season s) (linear_trend (List.length pi) rate) (c_frame s) rate (c_residuals s) (c_shift s) (c_events s) (c_sensitivity s) (c_pruning s))).

Definition cods_step (F : fits) (stl ffill : bool) (index : list Z) (pi : list fl) (component : string) (perfect : bool) (ic : nat) (s : cods_state) : result (cods_state * fl) :=
  bind (if String.eqb component "SR" then soiling_step F ffill pi perfect ic s
        else if String.eqb component "SC" then season_step F stl index pi s
        else if String.eqb component "Rd" then rate_step F pi s
        else Ok s) (fun s => Ok (recombine F pi s)).

(** The frame and the figures returned. *)
Record decomposition : Type := Decomp {
  o_ratio : list fl; o_rates : list fl; o_events : list bool; o_season : list fl; o_trend : list fl; o_total : list fl; o_residuals : list fl;
  o_rate : fl; o_loss : fl; o_shift : fl; o_rmse : fl; o_small : bool; o_adf : fl * fl }.

(** 1479-1533; [adf] gives statistic and p-value.  The amplitudes are Python floats (1513-1515). *)
Definition finish (F : fits) (adf : list fl -> result (fl * fl)) (significance : fl) (pi : list fl) (s : cods_state) : result decomposition :=
  match c_frame s with
  | None => Raise IndexError
  | Some k =>
    let ratio := k_ratio k in
    let loss := fmul (fmean (map (fun x => fsub (fz 1) x) ratio)) (fz 100) in
    let total := cols fmul (cols fmul ratio (c_season s)) (c_trend s) in
    let residuals := cols fdiv pi total in
    let shift := fmean residuals in
    let total := map (fun x => fmul x shift) total in
    bind (adf (dropna residuals)) (fun test =>
    let amp l := fsub (fquantile (qf 9 10) l) (fquantile (qf 1 10) l) in
    if feq (amp residuals) (fz 0) then Raise ZeroDivisionError
    else Ok (Decomp ratio (k_rates k) (k_events k) (c_season s) (c_trend s) total residuals (c_rate s) loss shift
                    (rmse (fit_root F) pi total) (flt (fdiv (amp ratio) (amp residuals)) significance) test))
  end.

Definition ones (pi : list fl) : list fl := map (fun _ => fz 1) pi.
Definition decompose (F : fits) (adf : list fl -> result (fl * fl)) (order : list string) (stl : bool) (max_iterations : nat)
    (sensitivity criterion pruning significance : fl) (ffill : bool) (s : series) : list (string * bool) * result decomposition :=
  let pi := vals s in
  match used_order stl order with
  | Raise e => ([], Raise e)
  | Ok order =>
    let '(ce, rm9) := ce_detection ffill 9 sensitivity pi in
    match collapse_cleaning_events 5 ce (diffs rm9) with
    | Raise e => ([], Raise e)
    | Ok pce =>
      let start := CS (ones pi) (ones pi) (ones pi) None (fz 0) pi (fz 1) pce sensitivity pruning in
      let '(done, _, r) := iterate (cods_step F stl ffill (times s) pi) (List.length order) max_iterations criterion
                                   max_iterations 0 order true 0 [rmse (fit_root F) pi (ones pi)] start in
      (done, bind r (finish F adf significance pi))
    end
  end.

(** The soiling fit of 1382-1390, with the defaults of 1939-1944; the number of rounds of the filter has to be
    large enough (see C60). *)
Definition kalman_fit (rounds iterations : nat) (process_noise : fl) (renorm : option Qc) (clip : bool)
    (input : list fl) (pce : list bool) (perfect : bool) (pruning : fl) : result kalman_frame :=
  match kalman_filter_for_SR rounds input process_noise (ff 1 20) (ff 1 200) (ff 1 2000) iterations pruning renorm perfect (Some pce) clip true with
  | Some r => r
  | None => Raise RuntimeError
  end.

(** ** run_bootstrap, 1535-1937 *)

(** 1678-1686: two alternatives of each of four parameters. *)
Definition pick {A} (l : list A) (i : nat) : result A := match nth_error l i with Some x => Ok x | None => Raise IndexError end.
Definition choice : Type := (list string * fl * fl * bool)%type.
Fixpoint collect {A} (l : list (result A)) : result (list A) :=
  match l with [] => Ok [] | x :: l' => bind x (fun a => bind (collect l') (fun r => Ok (a :: r))) end.
Definition combinations (orders : list (list string)) (sens prune : list fl) (fill : list bool) : result (list choice) :=
  collect (flat_map (fun i => flat_map (fun j => flat_map (fun k => map (fun l =>
    bind (pick orders i) (fun o => bind (pick sens j) (fun a => bind (pick prune k) (fun b => bind (pick fill l) (fun c => Ok (o, a, b, c)))))) [0%nat; 1%nat])
    [0%nat; 1%nat]) [0%nat; 1%nat]) [0%nat; 1%nat]).

(** 1690-1692. *)
Definition rounded_reps (reps : nat) : nat := if (reps mod 16 =? 0)%nat then reps else (reps + (16 - reps mod 16))%nat.

(** 1697-1725: fits raising ValueError are left out. *)
Fixpoint initial_fits (fit : choice -> result decomposition) (l : list choice) : result (list decomposition) :=
  match l with
  | [] => Ok []
  | c :: l' =>
    match fit c with
    | Ok d => bind (initial_fits fit l') (fun r => Ok (d :: r))
    | Raise ValueError => initial_fits fit l'
    | Raise e => Raise e
    end
  end.

Definition stationary (d : decomposition) : bool := flt (snd (o_adf d)) (ff 1 20).
(** Share of the days without soiling (1730). *)
Definition one_fraction (d : decomposition) : fl :=
  fdiv (fz (Z.of_nat (List.length (filter (fun x => feq x (fz 1)) (o_ratio d))))) (fz (Z.of_nat (List.length (o_ratio d)))).
(** 1735-1736 and 1857-1858; [np.sum] does not skip missing values. *)
Definition np_sum (l : list fl) : fl := fold_right fadd (fz 0) l.
Definition raw_weight (rmse fraction : fl) : fl := fdiv (fdiv (fz 1) rmse) (fadd (fz 1) fraction).
Definition normalized_weights (l : list fl) : list fl := let s := np_sum l in map (fun x => fdiv x s) l.
Definition weights_of (l : list decomposition) : list fl := normalized_weights (map (fun d => raw_weight (o_rmse d) (one_fraction d)) l).

(** What is returned and stored. *)
Record cods_result : Type := CR {
  cr_small : bool; cr_degradation : fl * fl * fl; cr_loss : fl * fl * fl; cr_shift : fl;
  cr_ratio : list fl; cr_season : list fl; cr_trend : list fl; cr_total : list fl; cr_residuals : list fl;
  cr_ratio_low : list fl; cr_ratio_high : list fl; cr_bt_ratio : list fl; cr_events : list fl }.

(** 1807-1850: the bootstrap fits, of the samples that exist; a failed test or ValueError drops the sample. *)
Fixpoint refits (samples seasons : list (list fl)) (refit : nat -> list fl -> result decomposition) (b : nat) (todo : nat)
    : result (list (decomposition * list fl)) :=
  match todo with
  | O => Ok []
  | S todo' =>
    match nth_error samples b, nth_error seasons b with
    | Some x, Some y =>
      match refit b (cols fdiv x y) with
      | Ok d => bind (refits samples seasons refit (S b) todo') (fun r => Ok (if stationary d then (d, y) :: r else r))
      | Raise ValueError => refits samples seasons refit (S b) todo'
      | Raise e => Raise e
      end
    | _, _ => Raise KeyError
    end
  end.

(** Row by row over the fits. *)
Definition across (l : list (list fl)) (i : nat) : list fl := map (fun c => at_row c i) l.
Definition weighted (w l : list fl) : fl := fsum (cols fmul l w).
Definition dot (a b : list fl) : fl := np_sum (cols fmul a b).

(** 1857-1937. *)
Definition summarize (confidence_level : Qc) (pi : list fl) (last : decomposition) (saved : list (decomposition * list fl)) : result cods_result :=
  match saved with
  | [] => Raise ValueError                                                           (* 1878: nothing to concatenate *)
  | _ =>
    let fitted := map fst saved in
    let w := weights_of fitted in
    let low := (qz 50 - confidence_level / qz 2) / qz 100 in
    let high := (qz 50 + confidence_level / qz 2) / qz 100 in
    if negb (qle 0 low && qle high 1 && qle low 1 && qle 0 high) then Raise ValueError
    else
      let rows f := map f (seq 0 (List.length pi)) in
      let ratios := map o_ratio fitted in
      let ratio := map (fun x => if flt x (fz 0) then fz 0 else clip_upper x) (o_ratio last) in
      let interval l := (dot l w, np_quantile low l, np_quantile high l) in
      let degradation := interval (map o_rate fitted) in
      let trend := linear_trend (List.length pi) (fst (fst degradation)) in
      let season := rows (fun i => weighted w (across (map snd saved) i)) in
      let total := cols fmul (cols fmul trend season) ratio in
      let residuals := cols fdiv pi total in
      let shift := fmean residuals in
      Ok (CR false degradation (interval (map o_loss fitted)) shift ratio season trend (map (fun x => fmul x shift) total) residuals
             (rows (fun i => fquantile low (across ratios i))) (rows (fun i => fquantile high (across ratios i)))
             (rows (fun i => weighted w (across ratios i)))
             (rows (fun i => weighted w (map (fun d => if nth i (o_events d) false then fz 1 else fz 0) fitted))))
  end.

(** [sampled k j]: bootstrap sample [j] of the [k]-th fit that passed the test. *)
Definition run_bootstrap (orders : list (list string)) (sens prune : list fl) (fill : list bool) (reps : nat) (confidence_level : Qc)
    (fit : choice -> result decomposition) (sampled : nat -> nat -> list fl) (draw : nat -> nat -> fl * Z)
    (refit : nat -> list fl -> result decomposition) (yoy : list fl -> result (fl * (fl * fl))) (s : series) : result cods_result :=
  let pi := vals s in
  bind (combinations orders sens prune fill) (fun choices =>
  let reps := rounded_reps reps in
  let per_fit := (reps / 16)%nat in
  bind (initial_fits fit choices) (fun fitted =>
  let w := weights_of fitted in
  if (8 <? List.length (filter (fun d => negb (stationary d) || feq (fst (o_adf d)) (fz 0)) fitted))%nat then Raise RuntimeError   (* 1753 *)
  else
  match fitted with
  | [] => Raise ValueError                                                           (* 1761: argmax of nothing *)
  | d0 :: _ =>
    let best := nth (argmax w) fitted d0 in
    let last := List.last fitted d0 in
    if (8 <? List.length (filter o_small fitted))%nat then                           (* 1765 *)
      bind (yoy pi) (fun y =>
      Ok (CR true (fst y, fst (snd y), snd (snd y)) (fz 0, fz 0, fmean (map (fun x => fsub (fz 1) x) (o_ratio best))) (o_shift best)
             (o_ratio best) (o_season best) (o_trend best) (o_total best) (o_residuals best) [] [] []
             (map (fun b : bool => if b then fz 1 else fz 0) (o_events best))))
    else
      match filter stationary fitted with
      | [] => Raise ValueError                                                       (* 1781 *)
      | good =>
        let samples := flat_map (fun k => map (sampled k) (seq 0 per_fit)) (seq 0 (List.length good)) in
        bind (collect (map (fun m => bind (pick w m) (fun x => Ok (m, x))) (seq 0 16))) (fun numbered_weights =>   (* 1788 *)
        let signals := map (fun p => combine (times s) (o_season (nth (fst p) fitted d0))) (filter (fun p => fgt (snd p) (fz 0)) numbered_weights) in
        bind (seasonal_samples signals per_fit draw) (fun seasons =>
        bind (refits samples (map vals seasons) refit 0 reps) (fun saved =>
        summarize confidence_level pi last saved)))
      end
  end)).

(** ** soiling_cods, 2411-2429 *)
Definition cods_summary (r : cods_result) : fl * (fl * fl) * fl * (fl * fl) :=
  let '(loss, loss1, loss2) := cr_loss r in
  let '(deg, deg1, deg2) := cr_degradation r in
  let sr x := fsub (fz 1) (fdiv x (fz 100)) in
  (sr loss, (sr loss1, sr loss2), deg, (deg1, deg2)).

(** The whole of soiling_cods: the fits are arbitrary functions of the series kept. *)
Definition soiling_cods (daily : bool) (orders : list (list string)) (sens prune : list fl) (fill : list bool) (reps : nat) (confidence_level : Qc)
    (fit : series -> choice -> result decomposition) (sampled : series -> nat -> nat -> list fl) (draw : nat -> nat -> fl * Z)
    (refit : series -> nat -> list fl -> result decomposition) (yoy : list fl -> result (fl * (fl * fl))) (s : series)
    : result (fl * (fl * fl) * fl * (fl * fl)) :=
  bind (cods_init daily s) (fun s =>
  bind (run_bootstrap orders sens prune fill reps confidence_level (fit s) (sampled s) draw (refit s) yoy s) (fun r =>
  Ok (cods_summary r))).
