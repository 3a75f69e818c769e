(** C63: from normalized energy to the stored performance *)

From Coq Require Import QArith Qcanon List ZArith Bool Arith Lia String Sorted.
From Verif.Base Require Import QcExtra ISort Quantile Fl TimeSeries Calendar Rolling.
From Verif.Spec Require Import Normalization FilterSets TrendRuns TrendCalls Pipeline.
From Verif.Model Require Import Energy Normalization FilterDict TrendAnalysis.
From Verif.Proofs Require Import TrendP8.
Import ListNotations.
Open Scope list_scope.
Open Scope Qc_scope.

Section Claims.
Context {P W T O YK SK YR SR : Type}.
Local Notation env := (environment P W T O YK SK YR SR).
Local Notation st := (state P W T O YR SR).
Local Notation req := (@request YK SK).

(** The performance stored by a successful call: filter the rows, take the weighted mean of the kept rows of each bin, filter the bins, fill the gaps. *)
Theorem C63_pipeline : forall (E : env) (q : req) (s s' : st), analyse E q s = (s', Ok tt) -> (0 < i_width (s_inputs s))%Z -> dividing (i_width (s_inputs s)) ->
  let filled := object (s_inputs s) (completion E (s_inputs s) (s_completed s)) empty_side in
  exists energy insolation m a c M p i,
    data E (q_case q) (s_inputs filled) (s_completed filled) = Ok (energy, insolation) /\ times energy = times insolation /\ sorted_index energy /\
    d_filter (side_of (q_case q) s') = Present m /\ d_filter_aggregated (side_of (q_case q) s') = Present M /\
    d_performance (side_of (q_case q) s') = Present p /\ d_insolation (side_of (q_case q) s') = Present i /\
    (exists parts idx, components_are E (q_case q) energy filled parts /\ common_index (times energy) parts idx /\ mask_of idx (kept (times energy) parts (rows_by_hand (params_of s))) m) /\
    binned (i_width (s_inputs s)) (kept_rows m energy) (kept_rows m insolation) a c /\
    (exists parts idx, aggregated_are E a c filled parts /\ common_index (times a) parts idx /\ mask_of idx (kept (times a) parts (rows_by_hand (aggregated_params_of s))) M) /\
    regular_rows (i_width (s_inputs s)) M a p /\ regular_rows (i_width (s_inputs s)) M c i.
Proof. exact pipeline. Qed.

(** For any width: the kept bins are counted anew from the midnight before the first of them. *)
Theorem C63_any_width : forall (E : env) (q : req) (s s' : st), analyse E q s = (s', Ok tt) -> (0 < i_width (s_inputs s))%Z ->
  let filled := object (s_inputs s) (completion E (s_inputs s) (s_completed s)) empty_side in
  exists energy insolation m a c M p i,
    data E (q_case q) (s_inputs filled) (s_completed filled) = Ok (energy, insolation) /\ times energy = times insolation /\ sorted_index energy /\
    d_filter (side_of (q_case q) s') = Present m /\ d_filter_aggregated (side_of (q_case q) s') = Present M /\
    d_performance (side_of (q_case q) s') = Present p /\ d_insolation (side_of (q_case q) s') = Present i /\
    (exists parts idx, components_are E (q_case q) energy filled parts /\ common_index (times energy) parts idx /\ mask_of idx (kept (times energy) parts (rows_by_hand (params_of s))) m) /\
    binned (i_width (s_inputs s)) (kept_rows m energy) (kept_rows m insolation) a c /\
    (exists parts idx, aggregated_are E a c filled parts /\ common_index (times a) parts idx /\ mask_of idx (kept (times a) parts (rows_by_hand (aggregated_params_of s))) M) /\
    rows_anew (e_infer E) (i_width (s_inputs s)) M a p /\ rows_anew (e_infer E) (i_width (s_inputs s)) M c i.
Proof. exact pipeline_any. Qed.

End Claims.

Definition hour (h : Z) : Z := (h * 3600000000000)%Z.
Definition above (n : nat) (s : series) : result mask := Ok (where_ (fun v => fgt v (fz (Z.of_nat n))) s).
Definition demo_env (w : Z) : environment nat unit unit unit unit unit nat nat :=
  Environment (fun _ => Some w) (fun _ => None) (fun _ x => x) tt tt (fun _ _ a _ => Ok a) (fun _ _ _ => Raise ValueError) (fun _ _ => Raise ValueError)
    above above above above (fun n _ s => above n s) (fun n s _ => above n s) above above above above
    (fun _ s => Ok (List.length s)) (fun _ s _ => Ok (List.length s)).
Definition every (w : Z) (l : list fl) : series := combine (map (fun k => (Z.of_nat k * w)%Z) (seq 0 (List.length l))) l.
(** Energy every [w], irradiance 8, bins of width [agg], and bins to be removed. *)
Definition demo (w agg : Z) (energy : list fl) (params : list (string * setting nat)) (removed : list Z) : state nat unit unit unit nat nat :=
  let poa := every w (map (fun _ => fz 8) energy) in
  State (Inputs (Present (every w energy)) (Present (every w energy)) (Some poa) None None agg tt (Some poa) None None Unset None)
   (Completed None None Unset Unset Unset (Validated valid_filter_params params)
     (Validated valid_filter_params_aggregated [("ad_hoc_filter"%string, AdHoc (map (fun t => (t, Some false)) removed))])) empty_side empty_side.
Definition ask : @request unit unit := Request Sensor [] tt tt.
Definition eight : list fl := [fz 8; fz 8; fz 16; fz 40; fz 8; fz 8; fz 24; fz 16; fz 8; fz 8].

(** Ten values every six hours; half-day bins; the bin of 24 h is removed. *)
Definition demo12 := demo (hour 6) (hour 12) eight [("normalized_filter"%string, Kwargs 0%nat)] [hour 24].
Definition the {A} (x : attr (list A)) : list A := match x with Present l => l | _ => [] end.
Definition is_nan (v : fl) : bool := match v with NaN => true | _ => false end.
Example C63_example :
  let s' := fst (analyse (demo_env (hour 6)) ask demo12) in
  snd (analyse (demo_env (hour 6)) ask demo12) = Ok tt /\
  the (d_filter_aggregated (s_sensor s')) = [(hour 0, true); (hour 12, true); (hour 24, false); (hour 36, true); (hour 48, true)] /\
  times (the (d_performance (s_sensor s'))) = map hour [0; 12; 24; 36; 48]%Z /\
  map is_nan (vals (the (d_performance (s_sensor s')))) = [false; false; true; false; false] /\
  dividing (hour 12).
Proof.
  cbv zeta. do 4 (split; [vm_compute; reflexivity|]). exists 2%Z. left. reflexivity.
Qed.

(** With other widths the bins are counted anew from the midnight before the first kept bin and
    the kept ones may be lost. *)
Definition bins_kept : Prop :=
  forall (E : environment nat unit unit unit unit unit nat nat) (s s' : state nat unit unit unit nat nat) m p, analyse E ask s = (s', Ok tt) -> (0 < i_width (s_inputs s))%Z ->
    d_filter_aggregated (s_sensor s') = Present m -> d_performance (s_sensor s') = Present p -> forall b, In (b, true) m -> In b (times p).
Theorem C63_any_width_refuted : ~ bins_kept.
Proof.
  intros H. set (s := demo (hour 5) (hour 5) (firstn 8 eight) [] (map hour [0; 5; 10; 15; 20; 30]%Z)). set (E := demo_env (hour 5)).
  assert (R : snd (analyse E ask s) = Ok tt) by (vm_compute; reflexivity).
  assert (M : the (d_filter_aggregated (s_sensor (fst (analyse E ask s)))) = map (fun k => (hour (5 * k), existsb (Z.eqb k) [5; 7]%Z)) [0; 1; 2; 3; 4; 5; 6; 7]%Z) by (vm_compute; reflexivity).
  assert (T : times (the (d_performance (s_sensor (fst (analyse E ask s))))) = map hour [24; 29; 34]%Z) by (vm_compute; reflexivity).
  specialize (H E s (fst (analyse E ask s))).
  destruct (d_filter_aggregated (s_sensor (fst (analyse E ask s)))) as [| |m] eqn:Em; try discriminate M.
  destruct (d_performance (s_sensor (fst (analyse E ask s)))) as [| |p] eqn:Ep; try discriminate T.
  specialize (H m p). rewrite <- R in H at 1. specialize (H (surjective_pairing _) eq_refl eq_refl eq_refl (hour 25)).
  cbn [the] in M, T. rewrite M, T in H. destruct H as [X|[X|[X|[]]]]; try discriminate X. do 5 right. left. reflexivity.
Qed.

(** Bins of five hours, those of the first day removed. The next starts at 25 h, an hour after midnight.
    If the kept bins are consecutive all values are stored an hour too early; if the bin at 30 h is
    removed too, no value is left. *)
Definition demo_infer (f : list Z -> option Z) : environment nat unit unit unit unit unit nat nat :=
  Environment (fun _ => Some (hour 5)) f (fun _ x => x) tt tt (fun _ _ a _ => Ok a) (fun _ _ _ => Raise ValueError) (fun _ _ => Raise ValueError)
    above above above above (fun n _ s => above n s) (fun n s _ => above n s) above above above above
    (fun _ s => Ok (List.length s)) (fun _ s _ => Ok (List.length s)).
Definition demo5 (removed : list Z) := demo (hour 5) (hour 5) (firstn 9 eight) [] (map hour removed).
Example C63_any_width_example :
  (let E := demo_infer (fun l => if (List.length l =? 4)%nat then Some (hour 5) else None) in
   let s := demo5 [0; 5; 10; 15; 20]%Z in
   snd (analyse E ask s) = Ok tt /\ times (the (d_performance (s_sensor (fst (analyse E ask s))))) = map hour [24; 29; 34; 39]%Z /\
   forallb (fun v => negb (is_nan v)) (vals (the (d_performance (s_sensor (fst (analyse E ask s)))))) = true) /\
  (let E := demo_infer (fun _ => None) in
   let s := demo5 [0; 5; 10; 15; 20; 30]%Z in
   snd (analyse E ask s) = Ok tt /\ times (the (d_performance (s_sensor (fst (analyse E ask s))))) = map hour [24; 29; 34; 39]%Z /\
   forallb is_nan (vals (the (d_performance (s_sensor (fst (analyse E ask s)))))) = true).
Proof. cbv zeta. repeat split; vm_compute; reflexivity. Qed.

Print Assumptions C63_pipeline.
Print Assumptions C63_any_width.
Print Assumptions C63_any_width_refuted.
