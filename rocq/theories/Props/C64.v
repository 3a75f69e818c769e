(** C64: clear-sky irradiance is the mean over the minutes of each interval, rescaled *)

From Coq Require Import QArith Qcanon List ZArith Bool Arith Lia String Sorted.
From Verif.Base Require Import QcExtra ISort Quantile Fl TimeSeries Calendar Rolling.
From Verif.Spec Require Import Normalization ClearskyPoa.
From Verif.Model Require Import Energy Normalization FilterDict TrendAnalysis.
From Verif.Proofs Require Import TrendP9.
Import ListNotations.
Open Scope list_scope.
Open Scope Qc_scope.
Section Claims.
Context {P W T O YK SK YR SR : Type}.
Local Notation env := (environment P W T O YK SK YR SR).
Local Notation inp := (inputs W O).

(** Irradiance is simulated at whole minutes, averaged over the intervals between the measured times and rescaled; ValueError if an interval has no minute. *)
Theorem C64_value : forall (E : env) (i : inp) poa loc o ms, i_poa i = Some poa -> times poa <> [] -> i_location i = Present loc -> i_orientation i = Some o ->
  sorted_index poa -> StronglySorted Z.lt ms ->
  (forall first last m, hd_error (times poa) = Some first -> (exists l, times poa = l ++ [last]) -> (In m ms <-> whole_minute first last m)) ->
  match e_clear_poa E loc o ms with
  | Raise e => clearsky_poa E i = Raise e
  | Ok raw => noinf (vals raw) ->
    (covered (times poa) raw -> exists clear, averaged (times poa) raw clear /\ clearsky_poa E i = irradiance_rescale (e_optimise E) poa clear 100 Iterative (ff 1 1000000)) /\
    (~ covered (times poa) raw -> clearsky_poa E i = Raise ValueError)
  end.
Proof. exact clearsky_value. Qed.

(** The result is on the measured times and the first value is missing. *)
Theorem C64_index : forall (E : env) (i : inp) poa out, i_poa i = Some poa -> clearsky_poa E i = Ok out ->
  times out = times poa /\ exists t l, out = (t, NaN) :: l.
Proof. exact clearsky_index. Qed.

(** What must be there. *)
Theorem C64_errors : forall (E : env) (i : inp),
  (i_poa i = None -> clearsky_poa E i = Raise AttributeError) /\
  (forall poa, i_poa i = Some poa ->
    (poa = [] -> clearsky_poa E i = Raise ValueError) /\
    (i_location i = Unset -> clearsky_poa E i = Raise ValueError) /\
    (i_orientation i = None -> clearsky_poa E i = Raise ValueError) /\
    (poa <> [] -> i_location i = Absent -> i_orientation i <> None -> clearsky_poa E i = Raise AttributeError)).
Proof. exact clearsky_errors. Qed.

(** The averages. *)
Theorem C64_averages : forall idx raw, StronglySorted Z.lt idx -> noinf (vals raw) ->
  (covered idx raw -> exists clear, aggregate_minutes idx raw = Ok clear /\ averaged idx raw clear) /\
  (~ covered idx raw -> aggregate_minutes idx raw = Raise ValueError).
Proof. exact averages. Qed.

(** Minutes are enough exactly if each interval contains one, in particular if the steps are at least a minute. *)
Theorem C64_minutes : forall idx raw, StronglySorted Z.lt idx -> times raw = minutes idx ->
  (covered idx raw <-> forall first b t, hd_error idx = Some first -> follows idx b t -> exists k, (0 <= k /\ b < first + 60000000000 * k <= t)%Z) /\
  ((forall b t, follows idx b t -> (60000000000 <= t - b)%Z) -> covered idx raw).
Proof. exact minutes_cover. Qed.

End Claims.

Definition half : Z := 30000000000.
Definition demo_env (optimise : (fl -> fl) -> fl -> fl) (raw : list fl) : environment nat unit unit unit unit unit nat nat :=
  Environment (fun _ => None) (fun _ => None) optimise tt tt (fun _ _ a _ => Ok a) (fun _ _ ms => Ok (combine ms raw)) (fun _ _ => Raise ValueError)
    (fun _ _ => Ok []) (fun _ _ => Ok []) (fun _ _ => Ok []) (fun _ _ => Ok []) (fun _ _ _ => Ok []) (fun _ _ _ => Ok []) (fun _ _ => Ok []) (fun _ _ => Ok []) (fun _ _ => Ok []) (fun _ _ => Ok [])
    (fun _ _ => Ok 0%nat) (fun _ _ _ => Ok 0%nat).
Definition demo (poa : option series) (loc : attr location) (o : option unit) : inputs unit unit := Inputs Unset Unset poa None None 0 tt None None None loc o.
Definition place : location := Location (qz 40) (qz (-105)).
Definition poa : series := [(0%Z, fz 60); (2 * minute, fz 100); (4 * minute + half, fz 100)]%Z.
Definition raw : list fl := [fz 10; fz 40; fz 60; NaN; fz 50].
Example C64_example :
  clearsky_poa (demo_env (fun _ f => f) raw) (demo (Some poa) (Present place) (Some tt)) = Ok [(0%Z, NaN); (2 * minute, fz 100); (4 * minute + half, fz 100)]%Z /\
  clearsky_poa (demo_env (fun _ f => f) raw) (demo (Some [(0%Z, fz 60); (half, fz 50); (minute, fz 60)]) (Present place) (Some tt)) = Raise ValueError /\
  clearsky_poa (demo_env (fun _ f => f) raw) (demo None (Present place) (Some tt)) = Raise AttributeError.
Proof. repeat split; fcompute. Qed.
(** The limit: guesses that move by a millionth are accepted, by a little more they never are. *)
Definition ends {A} (r : result A) : option exn := match r with Ok _ => None | Raise e => Some e end.
Definition drift (step : fl) : (fl -> fl) -> fl -> fl := fun _ f => fadd f step.
Example C64_limit :
  ends (clearsky_poa (demo_env (drift (ff 1 1000000)) raw) (demo (Some poa) (Present place) (Some tt))) = None /\
  ends (clearsky_poa (demo_env (drift (ff 11 10000000)) raw) (demo (Some poa) (Present place) (Some tt))) = Some ConvergenceError.
Proof. split; vm_compute; reflexivity. Qed.
Example C64_hypotheses : averaged (times poa) (combine (minutes (times poa)) raw) [(0%Z, NaN); (2 * minute, fz 50); (4 * minute + half, fz 50)]%Z /\
  sorted_index poa /\ times (combine (minutes (times poa)) raw) = minutes (times poa).
Proof.
  split; [|split; [repeat constructor|vm_compute; reflexivity]].
  assert (S : StronglySorted Z.lt (times poa)) by (repeat constructor). assert (N : noinf (vals (combine (minutes (times poa)) raw))).
  { intros x H. vm_compute in H. repeat destruct H as [<-|H]; try (split; discriminate). destruct H. }
  destruct (averages (times poa) (combine (minutes (times poa)) raw) S N) as [A _]. destruct A as (c & A & B).
  - apply minutes_cover; [exact S|vm_compute; reflexivity|].
    intros b t (l & l' & H). destruct l as [|x [|y [|z l]]]; cbn in H; try discriminate H; injection H; intros; subst; unfold minute, half; first [discriminate | lia | destruct l; discriminate].
  - assert (E : aggregate_minutes (times poa) (combine (minutes (times poa)) raw) = Ok [(0%Z, NaN); (2 * minute, fz 50); (4 * minute + half, fz 50)]%Z) by fcompute.
    rewrite E in A. injection A as <-. exact B.
Qed.

Print Assumptions C64_value.
Print Assumptions C64_index.
Print Assumptions C64_errors.
Print Assumptions C64_averages.
Print Assumptions C64_minutes.
