(** C23: range filters. *)

From Coq Require Import QArith Qcanon List ZArith Bool Arith Lia Permutation Sorted.
From Verif.Base Require Import QcExtra ISort Quantile Fl TimeSeries Rolling.
From Verif.Spec Require Import Stats Interp Filters.
From Verif.Model Require Import Utilities Filters.
From Verif.Proofs Require Import StatsP FlP FiltersP FiltersP2 FiltersP3.
Import ListNotations.
Open Scope list_scope.
Open Scope Qc_scope.

(** A limit may be infinite; a missing one is infinite. *)
Theorem C23_normalized : forall low high s,
  mask_is (fun _ _ v => below (match low with Some l => l | None => NInf end) v /\
                        below v (match high with Some h => h | None => PInf end)) s (normalized_filter low high s).
Proof. exact normalized_spec. Qed.
Theorem C23_poa : forall low high s, mask_is (fun _ _ v => below low v /\ below v high) s (poa_filter low high s).
Proof. exact poa_spec. Qed.
Theorem C23_tcell : forall low high s, mask_is (fun _ _ v => below low v /\ below v high) s (tcell_filter low high s).
Proof. exact tcell_spec. Qed.

Theorem C23_not_finite : forall low high s i t v b, nth_error s i = Some (t, v) -> (v = PInf \/ v = NInf \/ v = NaN) ->
  (nth_error (poa_filter (Fin low) (Fin high) s) i = Some (t, b) -> b = false) /\
  (nth_error (tcell_filter (Fin low) (Fin high) s) i = Some (t, b) -> b = false) /\
  (nth_error (normalized_filter (Some (Fin low)) (Some (Fin high)) s) i = Some (t, b) -> b = false).
Proof. exact range_infinite. Qed.
Theorem C23_nan : forall x, ~ below NaN x /\ ~ below x NaN.
Proof. exact below_nan. Qed.

Theorem C23_widen : forall low high low' high' s i t, fle low' low = true -> fle high high' = true ->
  (nth_error (poa_filter low high s) i = Some (t, true) -> nth_error (poa_filter low' high' s) i = Some (t, true)) /\
  (nth_error (tcell_filter low high s) i = Some (t, true) -> nth_error (tcell_filter low' high' s) i = Some (t, true)) /\
  (nth_error (normalized_filter (Some low) (Some high) s) i = Some (t, true) ->
   nth_error (normalized_filter (Some low') (Some high') s) i = Some (t, true) /\
   nth_error (normalized_filter None (Some high') s) i = Some (t, true) /\
   nth_error (normalized_filter (Some low') None s) i = Some (t, true) /\
   nth_error (normalized_filter None None s) i = Some (t, true)).
Proof. exact range_widen. Qed.

Example C23_example :
  poa_filter (fz 200) (fz 1200) [(0%Z, fz 200); (1%Z, fz 201); (2%Z, NaN); (3%Z, PInf); (4%Z, fz 1200)] =
    [(0%Z, false); (1%Z, true); (2%Z, false); (3%Z, false); (4%Z, false)] /\
  normalized_filter (Some (ff 1 100)) None [(0%Z, fz 1); (1%Z, ff 1 100); (2%Z, fz (-3)); (3%Z, NaN); (4%Z, PInf)] =
    [(0%Z, true); (1%Z, false); (2%Z, false); (3%Z, false); (4%Z, false)] /\
  tcell_filter (fz (-50)) (fz 110) [(0%Z, fz (-50)); (1%Z, fz (-49)); (2%Z, fz 109); (3%Z, fz 110)] =
    [(0%Z, false); (1%Z, true); (2%Z, true); (3%Z, false)].
Proof. vm_compute. auto. Qed.

Print Assumptions C23_normalized.
Print Assumptions C23_poa.
Print Assumptions C23_tcell.
Print Assumptions C23_not_finite.
Print Assumptions C23_nan.
Print Assumptions C23_widen.
