(** C49: the results of soiling_cods *)

From Coq Require Import QArith Qcanon List ZArith Bool Arith Lia Permutation Sorted.
From Verif.Base Require Import QcExtra ISort Quantile Fl TimeSeries Calendar Rolling.
From Verif.Spec Require Import Stats Soiling Cods Seasonal CodsRun CodsBoot.
From Verif.Model Require Import Soiling CodsTools CodsKalman Cods.
From Verif.Proofs Require Import FlP CodsP5 CodsP6 CodsP7 CodsP8 CodsP9 CodsP10.
Import ListNotations.
Open Scope list_scope.
Open Scope Qc_scope.
From Coq Require Import String.

(** Ratio and interval are the complements of the losses, end for end. *)
Theorem C49_complement : forall r l l1 l2, cr_loss r = (Fin l, Fin l1, Fin l2) -> forall ratio first second d d1 d2,
  cods_summary r = (ratio, (first, second), d, (d1, d2)) ->
  ratio = Fin (1 - l / qz 100) /\ first = Fin (1 - l1 / qz 100) /\ second = Fin (1 - l2 / qz 100) /\ cr_degradation r = (d, d1, d2).
Proof. exact summary_spec. Qed.

(** Missing values in front are left out; the series has to be daily. *)
Theorem C49_series : forall daily s,
  match cods_init daily s with
  | Ok kept => daily = true /\ without_leading s kept
  | Raise e => (s = [] /\ e = IndexError) \/ (s <> [] /\ daily = false /\ e = ValueError)
  end.
Proof. exact cods_init_spec. Qed.

(** Results of the whole: for a small signal the year-on-year rates, ratio 1 and an interval end from a fraction divided by 100; otherwise the complements of weighted estimates over the bootstrap fits that passed the test, the first end of the interval being the larger one. *)
Theorem C49_results : forall (daily : bool) (orders : list (list string)) (sens prune : list fl) (fill : list bool) (reps : nat) (cl : Qc)
  (fit : series -> choice -> result decomposition) (sampled : series -> nat -> nat -> list fl) (draw : nat -> nat -> fl * Z)
  (refit : series -> nat -> list fl -> result decomposition) (yoy : list fl -> result (fl * (fl * fl))) (s : series),
  forall ratio first second d d1 d2,
  soiling_cods daily orders sens prune fill reps cl fit sampled draw refit yoy s = Ok (ratio, (first, second), d, (d1, d2)) ->
  daily = true /\ exists kept, without_leading s kept /\
  ((exists y best m, yoy (vals kept) = Ok y /\ (d, d1, d2) = (fst y, fst (snd y), snd (snd y)) /\ (exists c, fit kept c = Ok best) /\ ratio = Fin 1 /\ first = Fin 1 /\
      (noinf (o_ratio best) -> finvals (o_ratio best) <> [] -> mean_of (o_ratio best) m /\ second = Fin (1 - (1 - m) / qz 100))) \/
   (exists saved, saved <> [] /\ (forall x, In x saved -> passes x /\ exists i input, refit kept i input = Ok x) /\
      forall errors rates losses, errors_of saved errors -> map o_rate saved = map Fin rates -> map o_loss saved = map Fin losses ->
      exists shares w l l1 l2, shares_of saved shares /\ inverse_weights errors shares w /\
        estimate cl w rates (d, d1, d2) /\ estimate cl w losses (Fin l, Fin l1, Fin l2) /\
        ratio = Fin (1 - l / qz 100) /\ first = Fin (1 - l1 / qz 100) /\ second = Fin (1 - l2 / qz 100) /\
        (0 <= cl -> 1 - l2 / qz 100 <= 1 - l1 / qz 100))).
Proof. exact cods_ok. Qed.

(** Two years' losses 2 (1 to 4) per cent, and a small signal with loss bound 1/10. *)
Definition of_losses (l l1 l2 : fl) : cods_result := CR false (fz (-1), fz (-2), fz 0) (l, l1, l2) (fz 1) [] [] [] [] [] [] [] [] [].
Example C49_example : cods_summary (of_losses (fz 2) (fz 1) (fz 4)) = (ff 98 100, (ff 99 100, ff 96 100), fz (-1), (fz (-2), fz 0)) /\
  cods_summary (of_losses (fz 0) (fz 0) (ff 1 10)) = (fz 1, (fz 1, ff 999 1000), fz (-1), (fz (-2), fz 0)) /\
  cods_init true [(0, NaN); (1, fz 1); (2, NaN)]%Z = Ok [(1, fz 1); (2, NaN)]%Z /\ cods_init true [(0, NaN); (1, NaN)]%Z = Ok [(0, NaN); (1, NaN)]%Z /\
  cods_init false [(0, fz 1)]%Z = Raise ValueError /\ cods_init true [] = Raise IndexError.
Proof. fcompute. Qed.
Definition three : series := [(0, NaN); (86400000000000, fz 1); (172800000000000, ff 9 10); (259200000000000, ff 4 5)]%Z.
Definition flat (q error : fl) (small : bool) (n : nat) : decomposition :=
  Decomp (repeat q n) (repeat (fz 0) n) (repeat false n) (repeat (fz 1) n) (repeat (fz 1) n) (repeat q n) (repeat (fz 1) n) (fz (-1)) (fmul (fz 100) (fsub (fz 1) q)) (fz 1) error small (fz (-5), fz 0).
Notation example_run small := (soiling_cods true [["SR"]; ["SC"]]%string [fz 1; fz 2] [fz 1; fz 2] [true; false] 1 (qz 95)
    (fun s _ => Ok (flat (ff 9 10) (fz 1) small (List.length s))) (fun s _ _ => vals s) (fun _ _ => (fz 1, 0%Z))
    (fun s i _ => Ok (flat (ff (90 + Z.of_nat (i mod 5)) 100) (fz (1 + Z.of_nat (i mod 2))) false (List.length s))) (fun _ => Ok (fz 1, (fz 0, fz 2))) three).
Definition close (q : Qc) (x : fl) : bool := feq x (Fin q).
Example C49_runs :
  match example_run true with Ok (r, (a, b), d, (d1, d2)) => [close 1 r; close 1 a; close (qf 999 1000) b; close 1 d; close 0 d1; close (qz 2) d2] | Raise _ => [] end = repeat true 6 /\
  match example_run false with Ok (r, (a, b), d, (d1, d2)) => [flt r a; flt b r; close (qf 94 100) a; close (qf 90 100) b; close (qz (-1)) d] | Raise _ => [] end = repeat true 5.
Proof. split; vm_compute; reflexivity. Qed.

(** The ends of the interval are not in increasing order. *)
Definition increasing_claim : Prop := forall r ratio first second d ends,
  cods_summary r = (ratio, (first, second), d, ends) -> (let '(_, l1, l2) := cr_loss r in fle l1 l2 = true) -> fle first second = true.
Theorem C49_increasing_refuted : ~ increasing_claim.
Proof. intros H. discriminate (H (of_losses (fz 2) (fz 1) (fz 4)) _ _ _ _ _ eq_refl eq_refl). Qed.
Print Assumptions C49_increasing_refuted.

Print Assumptions C49_complement.
Print Assumptions C49_series.
Print Assumptions C49_results.
