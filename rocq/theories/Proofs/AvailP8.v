(** Lost and actual production by period. *)

From Coq Require Import QArith Qcanon List ZArith Bool Arith Lia Permutation Sorted.
From Verif.Base Require Import QcExtra ISort Quantile Fl TimeSeries Rolling Segments.
From Verif.Spec Require Import Stats Energy Availability.
From Verif.Model Require Import Energy Availability.
From Verif.Proofs Require Import EnergyP6 EnergyP7 ClipP4 AvailP AvailP2 AvailP3 AvailP4 AvailP5 AvailP6 AvailP7.
Import ListNotations.
Open Scope list_scope.
Open Scope Qc_scope.

Lemma range_In : forall period l t p, l <> [] ->
  In p (period_range period l) <-> (period (hd t l) <= p <= period (List.last l t))%Z.
Proof.
  intros period l t p Hl. destruct l as [| t0 l]; [contradiction |]. unfold period_range. cbn [hd].
  assert (List.last (t0 :: l) t0 = List.last (t0 :: l) t) as -> by (rewrite !last_cons; reflexivity). rewrite in_map_iff. split.
  - intros (k & <- & Hk). apply in_seq in Hk. lia.
  - intros H. exists (Z.to_nat (p - period t0)). split; [lia |]. apply in_seq. lia.
Qed.

Lemma rollup_lookup : forall period f s p,
  lookup (rollup period f s) p = if in_dec Z.eq_dec p (period_range period (times s)) then f (in_period period p s) else NaN.
Proof.
  intros period f s p. unfold rollup. destruct (in_dec Z.eq_dec p (period_range period (times s))) as [H | H].
  - rewrite (lookup_map (fun p => f (in_period period p s))) by exact H. reflexivity.
  - apply lookup_none. unfold times at 1. rewrite map_map, map_id. exact H.
Qed.

Lemma rollup_fst : forall period f s, map fst (rollup period f s) = period_range period (times s).
Proof. intros. unfold rollup. rewrite map_map. apply map_id. Qed.

(** Values of the rows of a period. *)
Lemma in_period_rows : forall period p t0 w v k0,
  in_period period p (combine (map (fun k => (t0 + w * Z.of_nat k)%Z) (seq k0 (length v))) v) =
  map (fun i => nth (i - k0) v NaN) (filter (fun i => (period (t0 + w * Z.of_nat i) =? p)%Z) (seq k0 (length v))).
Proof.
  intros period p t0 w. induction v as [| x v IH]; intros k0; [reflexivity |]. unfold in_period in *. cbn [length seq map combine filter fst].
  assert (forall l, (forall i, In i l -> (S k0 <= i)%nat) -> map (fun i => nth (i - k0) (x :: v) NaN) l = map (fun i => nth (i - S k0) v NaN) l) as K.
  { intros l H. apply map_ext_in. intros i Hi. pose proof (H i Hi). replace (i - k0)%nat with (S (i - S k0)) by lia. reflexivity. }
  assert (forall i, In i (filter (fun i => (period (t0 + w * Z.of_nat i) =? p)%Z) (seq (S k0) (length v))) -> (S k0 <= i)%nat) as Hk.
  { intros i Hi. apply filter_In in Hi. destruct Hi as [Hi _]. apply in_seq in Hi. lia. }
  destruct (period (t0 + w * Z.of_nat k0) =? p)%Z.
  - unfold vals in *. cbn [map snd]. rewrite IH, (K _ Hk). replace (k0 - k0)%nat with 0%nat by lia. reflexivity.
  - rewrite IH, (K _ Hk). reflexivity.
Qed.

Lemma ffirst_map : forall (g : nat -> fl) l, StronglySorted lt l -> noinf (map g l) ->
  ((forall i, In i l -> g i = NaN) /\ ffirst (map g l) = NaN) \/
  exists i x, In i l /\ g i = Fin x /\ ffirst (map g l) = Fin x /\ forall k z, In k l -> g k = Fin z -> (i <= k)%nat.
Proof.
  intros g l. induction l as [| i l IH]; intros HS HN; [left; split; [intros ? [] | reflexivity] |].
  apply StronglySorted_inv in HS. destruct HS as [HS F]. rewrite Forall_forall in F.
  destruct (HN (g i) (or_introl eq_refl)) as [N1 N2]. unfold ffirst in *. cbn [map dropna filter] in *. unfold dropna in *. cbn [filter]. destruct (g i) as [| | x |] eqn:Eg; try contradiction.
  - cbn [notnan isnan negb]. destruct IH as [[A B] | (j & x & A & B & C & D)]; [exact HS | intros y Hy; apply HN; right; exact Hy | |].
    + left. split; [intros k [<- | Hk]; [exact Eg | apply A; exact Hk] | exact B].
    + right. exists j, x. split; [right; exact A |]. split; [exact B |]. split; [exact C |]. intros k z [<- | Hk] Hz; [congruence | exact (D k z Hk Hz)].
  - right. exists i, x. split; [left; reflexivity |]. split; [exact Eg |]. split; [reflexivity |]. intros k z [<- | Hk] _; [lia | apply F in Hk; lia].
Qed.

Lemma flast_map : forall (g : nat -> fl) l, StronglySorted lt l -> noinf (map g l) ->
  ((forall i, In i l -> g i = NaN) /\ flast (map g l) = NaN) \/
  exists i x, In i l /\ g i = Fin x /\ flast (map g l) = Fin x /\ forall k z, In k l -> g k = Fin z -> (k <= i)%nat.
Proof.
  intros g l HS HN. unfold flast. induction l as [| i l IH] using rev_ind; [left; split; [intros ? [] | reflexivity] |].
  rewrite map_app, rev_app_distr. cbn [map rev app].
  assert (StronglySorted lt l /\ forall k, In k l -> (k < i)%nat) as [HS' F].
  { clear -HS. induction l as [| x l IH]; [split; [constructor | intros ? []] |]. cbn [app] in HS. apply StronglySorted_inv in HS. destruct HS as [HS F]. destruct (IH HS) as [A B]. rewrite Forall_forall in F.
    split; [constructor; [exact A | apply Forall_forall; intros y Hy; apply F; apply in_or_app; left; exact Hy] |]. intros k [<- | Hk]; [apply F; apply in_or_app; right; left; reflexivity | apply B; exact Hk]. }
  assert (noinf (map g l)) as HN' by (intros y Hy; apply HN; rewrite map_app; apply in_or_app; left; exact Hy).
  destruct (HN (g i)) as [N1 N2]; [rewrite map_app; apply in_or_app; right; left; reflexivity |].
  unfold ffirst, dropna in *. cbn [filter]. destruct (g i) as [| | x |] eqn:Eg; try contradiction.
  - cbn [notnan isnan negb]. destruct (IH HS' HN') as [[A B] | (j & x & A & B & C & D)].
    + left. split; [| exact B]. intros k Hk. apply in_app_or in Hk. destruct Hk as [Hk | [<- | []]]; [apply A; exact Hk | exact Eg].
    + right. exists j, x. split; [apply in_or_app; left; exact A |]. split; [exact B |]. split; [exact C |]. intros k z Hk Hz. apply in_app_or in Hk. destruct Hk as [Hk | [<- | []]]; [exact (D k z Hk Hz) | congruence].
  - right. exists i, x. split; [apply in_or_app; right; left; reflexivity |]. split; [exact Eg |]. split; [reflexivity |]. intros k z Hk _. apply in_app_or in Hk. destruct Hk as [Hk | [<- | []]]; [apply F in Hk; lia | lia].
Qed.

Lemma seq_lt_sorted : forall n s, StronglySorted lt (seq s n).
Proof. induction n as [| n IH]; intros s; [constructor |]. cbn [seq]. constructor; [apply IH |]. apply Forall_forall. intros k Hk. apply in_seq in Hk. lia. Qed.
Lemma filter_lt_sorted : forall p l, StronglySorted lt l -> StronglySorted lt (filter p l).
Proof.
  intros p l H. induction H as [| x l H IH F]; [constructor |]. cbn [filter]. destruct (p x); [| exact IH]. constructor; [exact IH |].
  rewrite Forall_forall in *. intros y Hy. apply filter_In in Hy. apply F. apply Hy.
Qed.

Lemma change_spec : forall meter sel, noinf meter ->
  let l := map (fun i => nth i meter NaN) (filter sel (seq 0 (length meter))) in
  meter_change meter sel (fsub (flast l) (ffirst l)).
Proof.
  intros meter sel HN l. set (rows := filter sel (seq 0 (length meter))) in *. set (g := fun i => nth i meter NaN) in *.
  assert (StronglySorted lt rows) as HS by (apply filter_lt_sorted, seq_lt_sorted).
  assert (forall i, In i rows <-> (i < length meter)%nat /\ sel i = true) as HR by (intros i; unfold rows; rewrite filter_In, in_seq; intuition lia).
  assert (noinf (map g rows)) as HNl.
  { intros x Hx. apply in_map_iff in Hx. destruct Hx as (i & <- & Hi). apply HR in Hi. apply HN. apply nth_In. lia. }
  assert (forall i y, (i < length meter)%nat -> (g i = y <-> nth_error meter i = Some y)) as HG.
  { intros i y Hi. unfold g. split; [intros <-; apply nth_error_nth'; exact Hi | intros H; apply nth_error_nth; exact H]. }
  unfold l. destruct (ffirst_map g rows HS HNl) as [[A1 A2] | (i & x & A1 & A2 & A3 & A4)].
  - rewrite A2. left. split; [| destruct (flast _); reflexivity]. intros i Hi Hs. apply HG; [exact Hi |]. apply A1. apply HR. auto.
  - destruct (flast_map g rows HS HNl) as [[B1 B2] | (j & y & B1 & B2 & B3 & B4)]; [rewrite (B1 i A1) in A2; discriminate |].
    right. rewrite A3, B3. exists i, j, x, y. pose proof (proj1 (HR i) A1) as [I1 I2]. pose proof (proj1 (HR j) B1) as [J1 J2].
    split; [exact (A4 j y B1 B2) |]. split; [exact I2 |]. split; [exact J2 |]. split; [apply HG; assumption |]. split; [apply HG; assumption |]. split; [reflexivity |].
    intros k z Hk Hz. assert (k < length meter)%nat as Lk by (apply nth_error_Some; congruence). assert (In k rows) as Ik by (apply HR; auto). apply HG in Hz; [| exact Lk].
    split; [exact (A4 k z Ik Hz) | exact (B4 k z Ik Hz)].
Qed.

Lemma combine_losses_spec : forall freq t0 w n period system subsystem corrected, (0 < w)%Z -> (2 <= n)%nat ->
  (forall s t, (s <= t)%Z -> (period s <= period t)%Z) ->
  length system = n -> length subsystem = n -> length corrected = n -> noinf system -> noinf subsystem -> noinf corrected ->
  (exists i x, (i < n)%nat /\ total_at system subsystem i = Some x) ->
  let time i := (t0 + w * Z.of_nat i)%Z in
  exists rows, combine_losses freq period (evenly t0 w n) system subsystem corrected = Ok rows /\
    StronglySorted Z.lt (map fst rows) /\
    (forall p, In p (map fst rows) <-> (period t0 <= p <= period (time (n - 1)%nat))%Z) /\
    forall p l a v, In (p, (l, a, v)) rows ->
      ((p < period (time 1%nat))%Z -> l = NaN) /\
      ((period (time 1%nat) <= p)%Z -> l = Fin (sum_rows (fun i => if (period (time i) =? p)%Z then lost_in (hours w) system subsystem i else 0) 1 (n - 1))) /\
      meter_change corrected (fun i => (period (time i) =? p)%Z) a /\
      (l = NaN \/ a = NaN -> v = NaN) /\
      (forall x y, l = Fin x -> a = Fin y -> x + y <> 0 -> v = Fin (y / (x + y))).
Proof.
  intros freq t0 w n period system subsystem corrected Hw Hn Hp Ls Lu Lc Ns Nu Nc HX time.
  set (total := zip fadd system subsystem). assert (length total = n) as Lt by (unfold total; rewrite zip_length; lia).
  assert (forall i, (i < n)%nat -> nth_error total i = Some (match total_at system subsystem i with Some x => Fin x | None => NaN end)) as Ht.
  { intros i Hi. unfold total, total_at. rewrite zip_nth. rewrite (nth_error_nth' system NaN) by lia. rewrite (nth_error_nth' subsystem NaN) by lia.
    destruct (Ns (nth i system NaN) ltac:(apply nth_In; lia)) as [N1 N2]. destruct (Nu (nth i subsystem NaN) ltac:(apply nth_In; lia)) as [N3 N4].
    destruct (nth i system NaN); destruct (nth i subsystem NaN); try contradiction; reflexivity. }
  assert (noinf total) as Nt.
  { intros x Hx. apply In_nth_error in Hx. destruct Hx as [i Hi]. assert (i < n)%nat as L by (rewrite <- Lt; apply nth_error_Some; congruence).
    rewrite Ht in Hi by exact L. injection Hi as <-. destruct (total_at system subsystem i); split; discriminate. }
  assert (finvals total <> []) as Ft.
  { destruct HX as (i & x & Hi & Ex). intros E. assert (In x (finvals total)) as K.
    { apply finvals_In. apply nth_error_In with (n := i). rewrite Ht by exact Hi. rewrite Ex. reflexivity. }
    rewrite E in K. destruct K. }
  pose proof (energy_regular freq t0 w total Hw ltac:(lia) Nt Ft) as HE. rewrite Lt in HE. change (grid t0 w n) with (evenly t0 w n) in HE.
  unfold combine_losses. fold total. rewrite HE. cbn [bind].
  set (et := zip (step_value (hours w)) total (tl total)) in *.
  assert (length et = n - 1)%nat as Le by (unfold et; rewrite zip_length; destruct total; cbn [tl length] in *; lia).
  assert (tl (evenly t0 w n) = map (fun k => time k) (seq 1 (n - 1))) as Etl.
  { unfold evenly. destruct n as [| n']; [lia |]. cbn [seq map tl]. replace (S n' - 1)%nat with n' by lia. reflexivity. }
  assert (forall i, (1 <= i < n)%nat -> known_or_0 (nth (i - 1) et NaN) = lost_in (hours w) system subsystem i /\ (nth (i - 1) et NaN = NaN \/ exists x, nth (i - 1) et NaN = Fin x)) as Het.
  { intros i Hi. assert (nth_error et (i - 1) = Some (match total_at system subsystem (i - 1), total_at system subsystem i with Some _, Some x => Fin (x * hours w) | _, _ => NaN end)) as K.
    { unfold et. rewrite zip_nth. rewrite Ht by lia. assert (nth_error (tl total) (i - 1) = nth_error total i) as ->.
      { destruct i as [| i]; [lia |]. replace (S i - 1)%nat with i by lia. destruct total; [destruct i; reflexivity | reflexivity]. }
      rewrite Ht by lia. destruct (total_at system subsystem (i - 1)); destruct (total_at system subsystem i); reflexivity. }
    rewrite (nth_error_nth _ _ NaN K). unfold lost_in. destruct (total_at system subsystem (i - 1)); destruct (total_at system subsystem i); cbn [known_or_0]; eauto. }
  set (lost := rollup period fsum (combine (tl (evenly t0 w n)) et)). set (cum := combine (evenly t0 w n) corrected).
  set (actual := rollup period (fun l => fsub (flast l) (ffirst l)) cum).
  assert (times cum = evenly t0 w n) as Tc.
  { apply InterpP.combine_times. unfold evenly. rewrite map_length, seq_length. exact Lc. }
  assert (times (combine (tl (evenly t0 w n)) et) = tl (evenly t0 w n)) as Tl.
  { apply InterpP.combine_times. rewrite Etl, map_length, seq_length. exact Le. }
  assert (forall p, In p (period_range period (evenly t0 w n)) <-> (period t0 <= p <= period (time (n - 1)%nat))%Z) as R1.
  { intros p. rewrite (range_In period _ 0%Z).
    - assert (hd 0%Z (evenly t0 w n) = t0) as -> by (unfold evenly; destruct n; [lia | cbn; lia]).
      assert (List.last (evenly t0 w n) 0%Z = time (n - 1)%nat) as ->; [| reflexivity].
      unfold evenly. replace n with (S (n - 1)) at 1 by lia. rewrite seq_S, map_app. cbn [map]. rewrite last_last. reflexivity.
    - unfold evenly. destruct n; [lia | discriminate]. }
  assert (forall p, In p (period_range period (tl (evenly t0 w n))) <-> (period (time 1%nat) <= p <= period (time (n - 1)%nat))%Z) as R2.
  { intros p. rewrite (range_In period _ 0%Z).
    - rewrite Etl. assert (hd 0%Z (map (fun k => time k) (seq 1 (n - 1))) = time 1%nat) as -> by (replace (n - 1)%nat with (S (n - 2)) by lia; reflexivity).
      assert (List.last (map (fun k => time k) (seq 1 (n - 1))) 0%Z = time (n - 1)%nat) as ->; [| reflexivity].
      replace (n - 1)%nat with (S (n - 2)) at 1 by lia. rewrite seq_S, map_app. cbn [map]. rewrite last_last. f_equal. lia.
    - rewrite Etl. destruct n as [| [| n']]; [lia | lia |]. discriminate. }
  assert (period t0 <= period (time 1%nat))%Z as P01 by (apply Hp; unfold time; lia).
  eexists. split; [reflexivity |]. rewrite map_map. cbn [fst]. rewrite map_id. split; [apply zset_sorted |].
  assert (forall p, In p (zset (map fst lost ++ map fst actual)) <-> (period t0 <= p <= period (time (n - 1)%nat))%Z) as RZ.
  { intros p. rewrite zset_In. unfold lost, actual. rewrite !rollup_fst, Tc, Tl. rewrite in_app_iff, R1, R2. split; [intros [K | K]; lia | auto]. }
  split; [exact RZ |]. intros p l a v H. apply in_map_iff in H. destruct H as (p' & E & Hz). apply RZ in Hz.
  assert (p' = p) as -> by congruence. assert (lookup lost p = l) as El by congruence. assert (lookup actual p = a) as Ea by congruence.
  assert (v = availability_of l a) as Ev by (rewrite <- El, <- Ea; congruence). clear E.
  unfold lost in El. rewrite rollup_lookup, Tl in El. unfold actual in Ea. rewrite rollup_lookup, Tc in Ea.
  split; [| split; [| split; [| split]]].
  - intros L. destruct (in_dec Z.eq_dec p (period_range period (tl (evenly t0 w n)))) as [K |]; [apply R2 in K; lia | auto].
  - intros L. destruct (in_dec Z.eq_dec p (period_range period (tl (evenly t0 w n)))) as [K | K]; [| exfalso; apply K; apply R2; lia].
    rewrite <- El, Etl. unfold time. rewrite <- Le. rewrite in_period_rows. set (rows := seq 1 (length et)).
    assert (forall i, In i rows -> (1 <= i < n)%nat) as HI by (intros i Hi; apply in_seq in Hi; lia).
    rewrite fsum_noinf.
    + f_equal. unfold sum_rows, rows_from. replace (S (length et) - 1)%nat with (length et) by lia. fold rows. fold time.
      clearbody rows. induction rows as [| i rows IH]; [reflexivity |]. cbn [map filter]. rewrite qsum_cons. rewrite <- IH by (intros j Hj; apply HI; right; exact Hj).
      destruct (Het i (HI i (or_introl eq_refl))) as [H1 H2]. cbv beta. fold (time i). destruct (period (time i) =? p)%Z; [| rewrite Qcplus_0_l; reflexivity]. cbn [map]. rewrite <- H1. destruct H2 as [-> | [x ->]]; cbn [finvals known_or_0]; [ring | rewrite qsum_cons; reflexivity].
    + intros x Hx. apply in_map_iff in Hx. destruct Hx as (i & <- & Hi). apply filter_In in Hi. destruct Hi as [Hi _]. destruct (Het i (HI i Hi)) as [_ [-> | [y ->]]]; split; discriminate.
  - destruct (in_dec Z.eq_dec p (period_range period (evenly t0 w n))) as [K | K]; [| exfalso; apply K; apply R1; exact Hz].
    rewrite <- Ea. unfold cum, evenly. rewrite <- Lc. rewrite in_period_rows.
    assert (map (fun i => nth (i - 0) corrected NaN) (filter (fun i => (period (t0 + w * Z.of_nat i) =? p)%Z) (seq 0 (length corrected))) =
            map (fun i => nth i corrected NaN) (filter (fun i => (period (time i) =? p)%Z) (seq 0 (length corrected)))) as ->.
    { apply map_ext. intros i. rewrite Nat.sub_0_r. reflexivity. }
    apply (change_spec corrected (fun i => (period (time i) =? p)%Z) Nc).
  - rewrite Ev. intros [-> | ->]; [reflexivity |]. destruct l; reflexivity.
  - rewrite Ev. intros x y -> -> Hxy. apply availability_fin. exact Hxy.
Qed.
