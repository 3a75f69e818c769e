(** Proleptic Gregorian calendar on integer day numbers (no rdtools code).

    Day 0 is 1970-01-01.  [civil_of_day] / [day_of_civil] are the usual
    400/100/4/1-year decomposition with years starting in March.
    [add_years] is [pandas.DateOffset(years=n)]: the same month and day n years
    later, 29 February becoming 28 February when the target year has none. *)

From Coq Require Import ZArith Lia Bool.
From Coq Require Import ZifyBool.
Open Scope Z_scope.

Ltac zdm := Z.div_mod_to_equations; lia.

Definition leap (y : Z) : bool :=
  (y mod 4 =? 0) && (negb (y mod 100 =? 0) || (y mod 400 =? 0)).

Definition days_in_month (y m : Z) : Z :=
  if m =? 2 then (if leap y then 29 else 28)
  else if (m =? 4) || (m =? 6) || (m =? 9) || (m =? 11) then 30 else 31.

Record date : Type := mkdate { d_year : Z; d_month : Z; d_day : Z }.

Definition valid_date (x : date) : Prop :=
  1 <= d_month x <= 12 /\ 1 <= d_day x <= days_in_month (d_year x) (d_month x).

(** The day after (specification of what a calendar is). *)
Definition next_day (x : date) : date :=
  let (y, m, d) := x in
  if d <? days_in_month y m then mkdate y m (d + 1)
  else if m <? 12 then mkdate y (m + 1) 1
  else mkdate (y + 1) 1 1.

(** First day of the March-based year [y] (March y .. February y+1). *)
Definition ystart (y : Z) : Z := 365 * y + y / 4 - y / 100 + y / 400.

(** Offset of the [mp]-th month (0 = March) inside a March-based year. *)
Definition moff (mp : Z) : Z := (153 * mp + 2) / 5.

Definition day_of_civil (x : date) : Z :=
  let (y, m, d) := x in
  let y' := if m <=? 2 then y - 1 else y in
  let mp := if m <=? 2 then m + 9 else m - 3 in
  ystart y' + moff mp + (d - 1) - 719468.

Definition civil_of_day (z : Z) : date :=
  let z := z + 719468 in
  let n400 := z / 146097 in
  let r := z mod 146097 in
  let n100 := Z.min 3 (r / 36524) in
  let r := r - 36524 * n100 in
  let n4 := r / 1461 in
  let r := r mod 1461 in
  let n1 := Z.min 3 (r / 365) in
  let r := r - 365 * n1 in
  let y := 400 * n400 + 100 * n100 + 4 * n4 + n1 in
  let mp := (5 * r + 2) / 153 in
  let d := r - moff mp + 1 in
  let m := if mp <? 10 then mp + 3 else mp - 9 in
  mkdate (if m <=? 2 then y + 1 else y) m d.

(** ** March-based years *)

(** Number of days in March-based year [y]. *)
Definition ylen (y : Z) : Z := if leap (y + 1) then 366 else 365.

Lemma ystart_succ : forall y, ystart (y + 1) = ystart y + ylen y.
Proof.
  intros y. unfold ystart, ylen, leap.
  destruct ((y + 1) mod 4 =? 0) eqn:E4; destruct ((y + 1) mod 100 =? 0) eqn:E100;
    destruct ((y + 1) mod 400 =? 0) eqn:E400; cbn [andb orb negb]; zdm.
Qed.

Lemma ylen_bounds : forall y, 365 <= ylen y <= 366.
Proof. intros y. unfold ylen. destruct (leap (y + 1)); lia. Qed.

Lemma ystart_mono_n : forall n y, 0 <= n -> ystart y + 365 * n <= ystart (y + n).
Proof.
  intros n y Hn. revert y. pattern n. apply natlike_ind; [| | exact Hn].
  - intros y. replace (y + 0) with y by lia. lia.
  - intros k Hk IH y. specialize (IH (y + 1)).
    pose proof (ystart_succ y). pose proof (ylen_bounds y).
    replace (y + Z.succ k) with (y + 1 + k) by lia. lia.
Qed.

(** The March-based year and day of year of a day number are unique. *)
Lemma march_unique : forall y y' r r',
  0 <= r < ylen y -> 0 <= r' < ylen y' ->
  ystart y + r = ystart y' + r' -> y = y' /\ r = r'.
Proof.
  intros y y' r r' Hr Hr' E.
  assert (y = y') as ->; [| split; [reflexivity | lia]].
  destruct (Z.lt_trichotomy y y') as [L | [L | L]]; [exfalso | exact L | exfalso].
  - pose proof (ystart_mono_n (y' - (y + 1)) (y + 1) ltac:(lia)) as M.
    replace (y + 1 + (y' - (y + 1))) with y' in M by lia.
    rewrite ystart_succ in M. lia.
  - pose proof (ystart_mono_n (y - (y' + 1)) (y' + 1) ltac:(lia)) as M.
    replace (y' + 1 + (y - (y' + 1))) with y in M by lia.
    rewrite ystart_succ in M. lia.
Qed.

(** The decomposition used by [civil_of_day]. *)
Lemma march_decomp : forall z,
  let n400 := z / 146097 in
  let r1 := z mod 146097 in
  let n100 := Z.min 3 (r1 / 36524) in
  let r2 := r1 - 36524 * n100 in
  let n4 := r2 / 1461 in
  let r3 := r2 mod 1461 in
  let n1 := Z.min 3 (r3 / 365) in
  let r := r3 - 365 * n1 in
  let y := 400 * n400 + 100 * n100 + 4 * n4 + n1 in
  0 <= r < ylen y /\ ystart y + r = z.
Proof.
  intros z n400 r1 n100 r2 n4 r3 n1 r y.
  assert (0 <= r1 < 146097) as H1 by (unfold r1; apply Z.mod_pos_bound; lia).
  assert (z = 146097 * n400 + r1) as Hz by (unfold n400, r1; apply Z.div_mod; lia).
  clearbody n400 r1.
  assert (0 <= n100 <= 3 /\ 0 <= r2 /\ r1 = 36524 * n100 + r2 /\
          (r2 < 36524 \/ (n100 = 3 /\ r2 = 36524))) as H2 by (unfold r2, n100; zdm).
  clearbody n100 r2.
  assert (0 <= r3 < 1461 /\ r2 = 1461 * n4 + r3) as H3.
  { unfold r3, n4. split; [apply Z.mod_pos_bound; lia | apply Z.div_mod; lia]. }
  assert (0 <= n4 <= 24) as H4 by lia.
  clearbody n4 r3.
  assert (0 <= n1 <= 3 /\ 0 <= r /\ r3 = 365 * n1 + r /\
          (r < 365 \/ (n1 = 3 /\ r = 365))) as H5 by (unfold r, n1; zdm).
  clearbody n1 r.
  assert (y / 400 = n400) as Y400.
  { symmetry. apply Z.div_unique with (100 * n100 + 4 * n4 + n1); unfold y; lia. }
  assert (y / 100 = 4 * n400 + n100) as Y100.
  { symmetry. apply Z.div_unique with (4 * n4 + n1); unfold y; lia. }
  assert (y / 4 = 100 * n400 + 25 * n100 + n4) as Y4.
  { symmetry. apply Z.div_unique with n1; unfold y; lia. }
  split.
  - split; [lia |]. pose proof (ylen_bounds y).
    destruct H5 as (_ & _ & E5 & [L | [L1 L2]]); [lia |].
    assert ((y + 1) mod 4 = 0) as M4 by (unfold y; rewrite L1; zdm).
    unfold ylen, leap. rewrite M4. cbn [andb Z.eqb].
    destruct ((y + 1) mod 100 =? 0) eqn:E100; cbn [negb orb]; [| lia].
    apply Z.eqb_eq in E100.
    assert (n4 = 24) as N4 by (unfold y in E100; zdm).
    assert (n100 = 3) as N100 by lia.
    assert ((y + 1) mod 400 = 0) as M400 by (unfold y; rewrite L1, N4, N100; zdm).
    rewrite M400. cbn. lia.
  - unfold ystart. rewrite Y400, Y100, Y4. unfold y. lia.
Qed.

(** ** Months *)

Lemma moff_bracket : forall r, 0 <= r <= 365 ->
  let mp := (5 * r + 2) / 153 in
  0 <= mp <= 11 /\ moff mp <= r /\ r < moff (mp + 1).
Proof. intros r Hr mp. unfold moff, mp. zdm. Qed.

Lemma moff_month : forall r d mp, 0 <= mp <= 11 -> 1 <= d ->
  moff mp + (d - 1) < moff (mp + 1) -> r = moff mp + (d - 1) -> (5 * r + 2) / 153 = mp.
Proof. intros r d mp Hmp Hd Hlt ->. unfold moff in *. zdm. Qed.

Ltac month_cases m H :=
  assert (m = 1 \/ m = 2 \/ m = 3 \/ m = 4 \/ m = 5 \/ m = 6 \/ m = 7 \/ m = 8 \/ m = 9 \/
          m = 10 \/ m = 11 \/ m = 12) as H by lia;
  repeat (destruct H as [H | H]; [subst m |]); [.. | subst m].

Lemma moff_values :
  moff 0 = 0 /\ moff 1 = 31 /\ moff 2 = 61 /\ moff 3 = 92 /\ moff 4 = 122 /\ moff 5 = 153 /\
  moff 6 = 184 /\ moff 7 = 214 /\ moff 8 = 245 /\ moff 9 = 275 /\ moff 10 = 306 /\ moff 11 = 337.
Proof. repeat split; reflexivity. Qed.

(** March-based year and day of year of a valid date. *)
Lemma valid_march : forall x, valid_date x ->
  let y' := if d_month x <=? 2 then d_year x - 1 else d_year x in
  let mp := if d_month x <=? 2 then d_month x + 9 else d_month x - 3 in
  0 <= mp <= 11 /\ 0 <= moff mp + (d_day x - 1) < ylen y' /\
  (5 * (moff mp + (d_day x - 1)) + 2) / 153 = mp.
Proof.
  intros [y m d] [Hm Hd]. cbn [d_year d_month d_day] in *. cbv zeta.
  pose proof (ylen_bounds y) as YL. pose proof (ylen_bounds (y - 1)) as YL'.
  destruct moff_values as (V0&V1&V2&V3&V4&V5&V6&V7&V8&V9&V10&V11).
  month_cases m HM; cbn -[ylen moff Z.div Z.mul Z.add Z.sub days_in_month leap] in *;
    change (3 - 3) with 0; change (4 - 3) with 1; change (5 - 3) with 2; change (6 - 3) with 3;
    change (7 - 3) with 4; change (8 - 3) with 5; change (9 - 3) with 6; change (10 - 3) with 7;
    change (11 - 3) with 8; change (12 - 3) with 9; change (1 + 9) with 10; change (2 + 9) with 11;
    unfold days_in_month in Hd; cbn [Z.eqb Pos.eqb orb] in Hd;
    try (rewrite ?V0, ?V1, ?V2, ?V3, ?V4, ?V5, ?V6, ?V7, ?V8, ?V9, ?V10; zdm).
  (* February *)
  rewrite V11. unfold ylen. replace (y - 1 + 1) with y by lia.
  destruct (leap y); zdm.
Qed.

Lemma civil_of_day_inv : forall x, valid_date x -> civil_of_day (day_of_civil x) = x.
Proof.
  intros x V. pose proof (valid_march x V) as H. destruct x as [y m d].
  cbn [d_year d_month d_day] in H. cbv zeta in H.
  set (y' := if m <=? 2 then y - 1 else y) in *.
  set (mp := if m <=? 2 then m + 9 else m - 3) in *.
  destruct H as (Hmp & Hr & Emp).
  unfold day_of_civil. fold y' mp.
  set (z := ystart y' + moff mp + (d - 1) - 719468).
  unfold civil_of_day. cbv zeta.
  replace (z + 719468) with (ystart y' + (moff mp + (d - 1))) by (unfold z; lia).
  pose proof (march_decomp (ystart y' + (moff mp + (d - 1)))) as D. cbv zeta in D.
  destruct D as [D1 D2].
  destruct (march_unique _ _ _ _ D1 Hr D2) as [U1 U2].
  rewrite U1, U2, Emp.
  destruct V as [Vm _]. cbn in Vm.
  f_equal.
  - unfold y', mp. destruct (m <=? 2) eqn:E.
    + replace (m + 9 <? 10) with (m =? 0) by lia.
      destruct (m =? 0) eqn:E0; [lia |].
      replace (m + 9 - 9 <=? 2) with true by lia. lia.
    + replace (m - 3 <? 10) with true by lia. replace (m - 3 + 3 <=? 2) with false by lia. lia.
  - unfold mp. destruct (m <=? 2) eqn:E.
    + replace (m + 9 <? 10) with (m =? 0) by lia. destruct (m =? 0) eqn:E0; lia.
    + replace (m - 3 <? 10) with true by lia. lia.
  - lia.
Qed.

Lemma civil_of_day_spec : forall z,
  valid_date (civil_of_day z) /\ day_of_civil (civil_of_day z) = z.
Proof.
  intros z. unfold civil_of_day. cbv zeta.
  pose proof (march_decomp (z + 719468)) as D. cbv zeta in D.
  set (y := 400 * _ + _ + _ + _) in *. set (r := _ - 365 * _) in *.
  destruct D as [Hr Hz]. clearbody y r.
  pose proof (ylen_bounds y) as YL.
  pose proof (moff_bracket r ltac:(lia)) as B. cbv zeta in B.
  set (mp := (5 * r + 2) / 153) in *. clearbody mp. destruct B as (Bm & B1 & B2).
  destruct moff_values as (V0&V1&V2&V3&V4&V5&V6&V7&V8&V9&V10&V11).
  assert (moff 12 = 367) as V12 by reflexivity.
  assert (mp = 0 \/ mp = 1 \/ mp = 2 \/ mp = 3 \/ mp = 4 \/ mp = 5 \/ mp = 6 \/ mp = 7 \/
          mp = 8 \/ mp = 9 \/ mp = 10 \/ mp = 11) as C by lia.
  repeat (destruct C as [C | C]; [subst mp |]); [.. | subst mp];
    cbn [Z.ltb Z.compare Pos.compare Pos.compare_cont Z.leb] in *;
    change (0 + 3) with 3 in *; change (1 + 3) with 4 in *; change (2 + 3) with 5 in *;
    change (3 + 3) with 6 in *; change (4 + 3) with 7 in *; change (5 + 3) with 8 in *;
    change (6 + 3) with 9 in *; change (7 + 3) with 10 in *; change (8 + 3) with 11 in *;
    change (9 + 3) with 12 in *; change (10 - 9) with 1 in *; change (11 - 9) with 2 in *;
    change (0 + 1) with 1 in *; change (1 + 1) with 2 in *; change (2 + 1) with 3 in *;
    change (3 + 1) with 4 in *; change (4 + 1) with 5 in *; change (5 + 1) with 6 in *;
    change (6 + 1) with 7 in *; change (7 + 1) with 8 in *; change (8 + 1) with 9 in *;
    change (9 + 1) with 10 in *; change (10 + 1) with 11 in *; change (11 + 1) with 12 in *;
    cbn [Z.ltb Z.compare Pos.compare Pos.compare_cont Z.leb] in *;
    unfold valid_date, day_of_civil, days_in_month; cbn [d_year d_month d_day];
    change (3 - 3) with 0; change (4 - 3) with 1; change (5 - 3) with 2; change (6 - 3) with 3;
    change (7 - 3) with 4; change (8 - 3) with 5; change (9 - 3) with 6; change (10 - 3) with 7;
    change (11 - 3) with 8; change (12 - 3) with 9; change (1 + 9) with 10; change (2 + 9) with 11;
    cbn [Z.eqb Pos.eqb orb Z.leb Z.compare Pos.compare Pos.compare_cont];
    replace (y + 1 - 1) with y by lia;
    try (split; [split |]; lia).
  unfold ylen in Hr. destruct (leap (y + 1)); (split; [split |]; lia).
Qed.

(** [day_of_civil] counts days: the epoch is day 0 and the next calendar day is
    the next number. *)
Lemma day_of_civil_epoch : day_of_civil (mkdate 1970 1 1) = 0.
Proof. reflexivity. Qed.

Lemma next_day_valid : forall x, valid_date x -> valid_date (next_day x).
Proof.
  intros [y m d] [Hm Hd]. cbn [d_year d_month d_day] in *. unfold next_day.
  destruct (d <? days_in_month y m) eqn:E1; [split; cbn; lia |].
  destruct (m <? 12) eqn:E2; split; cbn [d_year d_month d_day]; try lia.
  - unfold days_in_month. destruct (leap y);
      repeat match goal with |- context [if ?b then _ else _] => destruct b end; lia.
  - unfold days_in_month. cbn. lia.
Qed.

Lemma day_of_civil_next : forall x, valid_date x ->
  day_of_civil (next_day x) = day_of_civil x + 1.
Proof.
  intros [y m d] [Hm Hd]. cbn [d_year d_month d_day] in *. unfold next_day.
  destruct (d <? days_in_month y m) eqn:E1; [unfold day_of_civil; lia |].
  assert (d = days_in_month y m) as -> by lia. clear E1 Hd.
  destruct moff_values as (V0&V1&V2&V3&V4&V5&V6&V7&V8&V9&V10&V11).
  pose proof (ystart_succ (y - 1)) as YS. replace (y - 1 + 1) with y in YS by lia.
  month_cases m HM; unfold day_of_civil, days_in_month;
    cbn [Z.ltb Z.leb Z.eqb Z.compare Pos.compare Pos.compare_cont Pos.eqb orb];
    try change (1 + 1) with 2; try change (2 + 1) with 3; try change (3 + 1) with 4;
    try change (4 + 1) with 5; try change (5 + 1) with 6; try change (6 + 1) with 7;
    try change (7 + 1) with 8; try change (8 + 1) with 9; try change (9 + 1) with 10;
    try change (10 + 1) with 11; try change (11 + 1) with 12;
    cbn [Z.ltb Z.leb Z.eqb Z.compare Pos.compare Pos.compare_cont Pos.eqb orb];
    change (3 - 3) with 0; change (4 - 3) with 1; change (5 - 3) with 2; change (6 - 3) with 3;
    change (7 - 3) with 4; change (8 - 3) with 5; change (9 - 3) with 6; change (10 - 3) with 7;
    change (11 - 3) with 8; change (12 - 3) with 9; change (1 + 9) with 10; change (2 + 9) with 11;
    try (replace (y + 1 - 1) with y by lia);
    try lia.
  unfold ylen in YS. replace (y - 1 + 1) with y in YS by lia.
  destruct (leap y); lia.
Qed.

(** ** Timestamps in nanoseconds *)

Definition ns_day : Z := 86400 * 1000000000.
Definition ts_day (t : Z) : Z := t / ns_day.
Definition ts_date (t : Z) : date := civil_of_day (ts_day t).
Definition ts_year (t : Z) : Z := d_year (ts_date t).
Definition ts_month (t : Z) : Z := d_month (ts_date t).
Definition ts_doy (t : Z) : Z :=
  ts_day t - day_of_civil (mkdate (ts_year t) 1 1) + 1.

Definition add_years_date (n : Z) (x : date) : date :=
  let (y, m, d) := x in mkdate (y + n) m (Z.min d (days_in_month (y + n) m)).

(** [t + pd.DateOffset(years=n)]; the time of day is kept. *)
Definition add_years (n t : Z) : Z :=
  day_of_civil (add_years_date n (ts_date t)) * ns_day + t mod ns_day.

Lemma add_years_date_valid : forall n x, valid_date x -> valid_date (add_years_date n x).
Proof.
  intros n [y m d] [Hm Hd]. cbn [d_year d_month d_day] in *. split; cbn [d_year d_month d_day add_years_date].
  - exact Hm.
  - assert (1 <= days_in_month (y + n) m).
    { unfold days_in_month. destruct (leap (y + n));
        repeat match goal with |- context [if ?b then _ else _] => destruct b end; lia. }
    lia.
Qed.

Lemma leap_succ : forall y, leap y = true -> leap (y + 1) = false.
Proof.
  intros y. unfold leap. intros H.
  assert (y mod 4 = 0) as E by (destruct (y mod 4 =? 0) eqn:E; [lia | discriminate]).
  assert ((y + 1) mod 4 = 1) as -> by zdm. reflexivity.
Qed.

Lemma add_one_year_march : forall z, exists y r,
  0 <= r < ylen y /\ z + 719468 = ystart y + r /\
  day_of_civil (add_years_date 1 (civil_of_day z)) + 719468 = ystart (y + 1) + Z.min r 364.
Proof.
  intros z. destruct (civil_of_day_spec z) as [V E].
  set (x := civil_of_day z) in *. clearbody x.
  pose proof (valid_march x V) as H. destruct x as [y m d]. destruct V as [Vm Vd].
  cbn [d_year d_month d_day] in *. cbv zeta in H.
  exists (if m <=? 2 then y - 1 else y), (moff (if m <=? 2 then m + 9 else m - 3) + (d - 1)).
  destruct H as (Hmp & Hr & _). split; [exact Hr |].
  unfold day_of_civil in E. split; [lia |].
  cbn [add_years_date day_of_civil].
  destruct moff_values as (V0&V1&V2&V3&V4&V5&V6&V7&V8&V9&V10&V11).
  month_cases m HM; unfold days_in_month in *;
    cbn [Z.ltb Z.leb Z.eqb Z.compare Pos.compare Pos.compare_cont Pos.eqb orb] in *;
    change (3 - 3) with 0 in *; change (4 - 3) with 1 in *; change (5 - 3) with 2 in *;
    change (6 - 3) with 3 in *; change (7 - 3) with 4 in *; change (8 - 3) with 5 in *;
    change (9 - 3) with 6 in *; change (10 - 3) with 7 in *; change (11 - 3) with 8 in *;
    change (12 - 3) with 9 in *; change (1 + 9) with 10 in *; change (2 + 9) with 11 in *;
    try (replace (y + 1 - 1) with (y - 1 + 1) by lia); try lia.
  destruct (leap y) eqn:L.
  - rewrite (leap_succ y L). lia.
  - destruct (leap (y + 1)); lia.
Qed.

Lemma ns_day_pos : 0 < ns_day.
Proof. reflexivity. Qed.

Lemma ts_split : forall t, t = ts_day t * ns_day + t mod ns_day /\ 0 <= t mod ns_day < ns_day.
Proof.
  intros t. unfold ts_day. pose proof ns_day_pos.
  split; [rewrite (Z.mul_comm (t / ns_day)); apply Z.div_mod; lia | apply Z.mod_pos_bound; lia].
Qed.

(** One calendar year is 365 or 366 days. *)
Lemma add_one_year_bounds : forall t,
  365 * ns_day <= add_years 1 t - t <= 366 * ns_day.
Proof.
  intros t. destruct (add_one_year_march (ts_day t)) as (y & r & Hr & Hz & Hs).
  destruct (ts_split t) as [Ht Hm]. unfold add_years, ts_date.
  set (s := day_of_civil _) in *.
  assert (365 <= s - ts_day t <= 366) as B.
  { rewrite ystart_succ in Hs. pose proof (ylen_bounds y) as L.
    unfold ylen in *. destruct (leap (y + 1)); lia. }
  pose proof ns_day_pos. nia.
Qed.

Lemma add_one_year_day_mono : forall z1 z2, z1 <= z2 ->
  day_of_civil (add_years_date 1 (civil_of_day z1)) <=
  day_of_civil (add_years_date 1 (civil_of_day z2)).
Proof.
  intros z1 z2 H.
  destruct (add_one_year_march z1) as (y1 & r1 & Hr1 & Hz1 & Hs1).
  destruct (add_one_year_march z2) as (y2 & r2 & Hr2 & Hz2 & Hs2).
  destruct (Z.lt_trichotomy y1 y2) as [L | [L | L]].
  - pose proof (ystart_mono_n (y2 + 1 - (y1 + 1 + 1)) (y1 + 1 + 1) ltac:(lia)) as M.
    replace (y1 + 1 + 1 + (y2 + 1 - (y1 + 1 + 1))) with (y2 + 1) in M by lia.
    rewrite (ystart_succ (y1 + 1)) in M. pose proof (ylen_bounds (y1 + 1)). lia.
  - subst. lia.
  - pose proof (ystart_mono_n (y1 - (y2 + 1)) (y2 + 1) ltac:(lia)) as M.
    replace (y2 + 1 + (y1 - (y2 + 1))) with y1 in M by lia.
    rewrite ystart_succ in M. lia.
Qed.

(** Day of year is between 1 and 365 (366 in leap years). *)
Lemma ts_doy_bounds : forall t, 1 <= ts_doy t <= (if leap (ts_year t) then 366 else 365).
Proof.
  intros t. unfold ts_doy, ts_year, ts_date.
  destruct (civil_of_day_spec (ts_day t)) as [V E].
  destruct (civil_of_day (ts_day t)) as [y m d]. rewrite <- E. destruct V as [Vm Vd].
  cbn [d_year d_month d_day] in *.
  pose proof (ystart_succ (y - 1)) as YS. replace (y - 1 + 1) with y in YS by lia.
  unfold ylen in YS. replace (y - 1 + 1) with y in YS by lia.
  destruct moff_values as (V0&V1&V2&V3&V4&V5&V6&V7&V8&V9&V10&V11).
  month_cases m HM; unfold days_in_month, day_of_civil in *;
    cbn [Z.ltb Z.leb Z.eqb Z.compare Pos.compare Pos.compare_cont Pos.eqb orb] in *;
    change (3 - 3) with 0 in *; change (4 - 3) with 1 in *; change (5 - 3) with 2 in *;
    change (6 - 3) with 3 in *; change (7 - 3) with 4 in *; change (8 - 3) with 5 in *;
    change (9 - 3) with 6 in *; change (10 - 3) with 7 in *; change (11 - 3) with 8 in *;
    change (12 - 3) with 9 in *; change (1 + 9) with 10 in *; change (2 + 9) with 11 in *;
    destruct (leap y); lia.
Qed.

Lemma ts_month_range : forall t, 1 <= ts_month t <= 12.
Proof.
  intros t. unfold ts_month, ts_date. destruct (civil_of_day_spec (ts_day t)) as [[H _] _]. exact H.
Qed.
