(** Subsystem losses. *)

From Coq Require Import QArith Qcanon List ZArith Bool Arith Lia Permutation Sorted.
From Verif.Base Require Import QcExtra ISort Quantile Fl TimeSeries Calendar Rolling.
From Verif.Spec Require Import Stats Availability.
From Verif.Model Require Import Utilities Clipping Availability.
From Verif.Proofs Require Import StatsP FiltersP ClipP.
Import ListNotations.
Open Scope list_scope.
Open Scope Qc_scope.

Lemma zip_map : forall A B C D (f : B -> C -> D) (g : A -> B) (h : A -> C) l,
  zip f (map g l) (map h l) = map (fun x => f (g x) (h x)) l.
Proof. intros. unfold zip. induction l as [| x l IH]; cbn; [reflexivity |]. f_equal. exact IH. Qed.

Lemma zip_nth : forall A B C (f : A -> B -> C) a b i, nth_error (zip f a b) i =
  match nth_error a i, nth_error b i with Some x, Some y => Some (f x y) | _, _ => None end.
Proof.
  intros. unfold zip. rewrite nth_error_map_some, nth_error_combine. destruct (nth_error a i); [| reflexivity].
  destruct (nth_error b i); reflexivity.
Qed.

Lemma zip_length : forall A B C (f : A -> B -> C) a b, length (zip f a b) = Nat.min (length a) (length b).
Proof. intros. unfold zip. rewrite map_length. apply combine_length. Qed.

(** ** One row *)

Section Row.
Variable l : list subsystem.
Hypothesis sizes_pos : forall u s, In u l -> s_size u = Some s -> 0 < s.

Let thr := map (fun u => Fin (s_threshold u)) l.
Let sizes := map (fun u => match s_size u with Some q => Fin q | None => NaN end) l.
Let row := map (fun u => Fin (s_power u)) l.

Lemma online_iff : forall u, onlineb u = true <-> online u.
Proof. intros u. unfold onlineb, online. split; intros H; [apply qlt_spec in H | apply qlt_spec]; exact H. Qed.

Lemma row_online : looks_online thr row = map onlineb l.
Proof. unfold looks_online, thr, row. rewrite zip_map. apply map_ext. intros u. reflexivity. Qed.

Lemma row_reporting : reporting thr row = map (fun u => if onlineb u then Fin (s_power u) else NaN) l.
Proof. unfold reporting. rewrite row_online. unfold row. rewrite zip_map. reflexivity. Qed.

Lemma size_nonneg : forall u, In u l -> 0 <= size_or_0 u.
Proof.
  intros u Hu. unfold size_or_0. destruct (s_size u) as [s |] eqn:E; [| apply Qcle_refl].
  apply Qclt_le_weak. exact (sizes_pos u s Hu E).
Qed.

Lemma sum_sizes : forall k, (forall u, In u k -> In u l) ->
  fsum (map (fun u => match s_size u with Some q => Fin q | None => NaN end) k) = Fin (capacity k).
Proof.
  intros k Hk. rewrite fsum_noinf.
  - f_equal. unfold capacity. clear Hk. induction k as [| u k IH]; [reflexivity |]. cbn [map]. rewrite qsum_cons, <- IH.
    unfold size_or_0. destruct (s_size u); cbn [finvals]; [rewrite qsum_cons; reflexivity | qlra].
  - intros x Hx. apply in_map_iff in Hx. destruct Hx as (u & <- & _). destruct (s_size u); split; discriminate.
Qed.

Lemma capacity_ge : forall k u s, (forall v, In v k -> In v l) -> In u k -> s_size u = Some s -> s <= capacity k.
Proof.
  intros k u s Hk Hu Es. unfold capacity. induction k as [| v k IH]; [contradiction |]. cbn [map]. rewrite qsum_cons.
  assert (0 <= qsum (map size_or_0 k)) as P.
  { apply qsum_nonneg. apply Forall_forall. intros x Hx. apply in_map_iff in Hx. destruct Hx as (w & <- & Hw).
    apply size_nonneg. apply Hk. right. exact Hw. }
  destruct Hu as [-> | Hu].
  - unfold size_or_0 at 1. rewrite Es. qlra.
  - pose proof (IH (fun w Hw => Hk w (or_intror Hw)) Hu). pose proof (size_nonneg v (Hk v (or_introl eq_refl))). qlra.
Qed.

Lemma capacity_pos : forall u s, In u l -> s_size u = Some s -> 0 < capacity l.
Proof.
  intros u s Hu Es. pose proof (capacity_ge l u s (fun v H => H) Hu Es). pose proof (sizes_pos u s Hu Es). qlra.
Qed.

Definition share_fl (u : subsystem) : fl := match s_size u with Some s => Fin (s / capacity l) | None => NaN end.
Lemma row_fractions : fractions sizes = map share_fl l.
Proof.
  unfold fractions. unfold sizes at 1. rewrite (sum_sizes l (fun v H => H)). unfold sizes. rewrite map_map.
  apply map_ext_in. intros u Hu. unfold share_fl. destruct (s_size u) as [s |] eqn:Es; [| reflexivity].
  pose proof (capacity_pos u s Hu Es) as P. cbn. destruct (qeq (capacity l) 0) eqn:E; [| reflexivity].
  apply qeq_spec in E. rewrite E in P. discriminate.
Qed.

(** *** Full power *)
Lemma row_specific : finvals (zip fdiv (reporting thr row) sizes) = specific_powers l /\ noinf (zip fdiv (reporting thr row) sizes).
Proof.
  rewrite row_reporting. unfold sizes. rewrite zip_map.
  assert (forall k, (forall u, In u k -> In u l) ->
    finvals (map (fun x => fdiv (if onlineb x then Fin (s_power x) else NaN) (match s_size x with Some q => Fin q | None => NaN end)) k) = specific_powers k /\
    noinf (map (fun x => fdiv (if onlineb x then Fin (s_power x) else NaN) (match s_size x with Some q => Fin q | None => NaN end)) k)) as G.
  { induction k as [| u k IH]; intros Hk; [split; [reflexivity | intros x []] |].
    destruct (IH (fun v H => Hk v (or_intror H))) as [IH1 IH2]. cbn [map specific_powers].
    destruct (s_size u) as [s |] eqn:Es.
    - pose proof (sizes_pos u s (Hk u (or_introl eq_refl)) Es) as P.
      destruct (onlineb u).
      + assert (fdiv (Fin (s_power u)) (Fin s) = Fin (s_power u / s)) as ->.
        { cbn. destruct (qeq s 0) eqn:E; [| reflexivity]. apply qeq_spec in E. rewrite E in P. discriminate. }
        cbn [finvals]. rewrite IH1. split; [reflexivity |]. intros x [<- | Hx]; [split; discriminate | exact (IH2 x Hx)].
      + cbn [fdiv finvals]. split; [exact IH1 |]. intros x [<- | Hx]; [split; discriminate | exact (IH2 x Hx)].
    - destruct (onlineb u); cbn [fdiv finvals]; (split; [exact IH1 |]); intros x [<- | Hx]; try (split; discriminate); exact (IH2 x Hx). }
  apply G. auto.
Qed.

Lemma row_full : let full := fmul (fmean (zip fdiv (reporting thr row) sizes)) (fz (Z.of_nat (length l))) in
  (specific_powers l = [] /\ full = NaN) \/ exists F, full_power l F /\ full = Fin F.
Proof.
  intros full. destruct row_specific as [E N]. destruct (list_eq_dec Qc_eq_dec (specific_powers l) []) as [Z | NZ].
  - left. split; [exact Z |]. unfold full, fmean, fsum, fcount. rewrite (dropna_noinf _ N), E, Z. reflexivity.
  - right. exists (qmean (specific_powers l) * qlen l). split; [split; [exact NZ | reflexivity] |].
    unfold full. rewrite (fmean_noinf _ N); [| rewrite E; exact NZ]. rewrite E. reflexivity.
Qed.

(** *** The smallest offline share *)
Lemma row_smallest : exists s, smallest_offline l s /\
  fillna (fz 1) (fminimum (zip (fun (b : bool) f => if b then f else NaN) (zip fle row thr) (fractions sizes))) = Fin s.
Proof.
  rewrite row_fractions. unfold row, thr. rewrite zip_map, zip_map.
  set (k := map _ l).
  assert (forall x, In (Fin x) k <-> offline_shares l x) as Hk.
  { intros x. unfold k, offline_shares. rewrite in_map_iff. split.
    - intros (u & E & Hu). cbn [fle] in E. destruct (qle (s_power u) (s_threshold u)) eqn:Ed; [| discriminate].
      unfold share_fl in E. destruct (s_size u) as [s |] eqn:Es; [| discriminate]. injection E as <-.
      exists u, s. repeat split; try assumption. unfold online. apply qle_spec in Ed. intros K. qlra.
    - intros (u & s & Hu & Ho & Es & ->). exists u. split; [| exact Hu]. cbn [fle].
      destruct (qle (s_power u) (s_threshold u)) eqn:Ed.
      + unfold share_fl. rewrite Es. reflexivity.
      + exfalso. apply Ho. unfold online. apply qle_false in Ed. exact Ed. }
  assert (noinf k) as Nk.
  { intros x Hx. unfold k in Hx. apply in_map_iff in Hx. destruct Hx as (u & <- & _). destruct (fle _ _); [| split; discriminate].
    unfold share_fl. destruct (s_size u); split; discriminate. }
  destruct (fminimum_spec k Nk) as [[E0 ->] | (lo & [M1 M2] & ->)].
  - exists 1. split; [right; split; [| reflexivity] | reflexivity]. intros y Hy. apply Hk in Hy. apply finvals_In in Hy. rewrite E0 in Hy. exact Hy.
  - exists lo. split; [| reflexivity]. left. split; [apply Hk; apply finvals_In; exact M1 |].
    intros y Hy. apply M2. apply finvals_In. apply Hk. exact Hy.
Qed.

(** *** The lowest possible fraction *)
Lemma qsum_shares : forall c k,
  qsum (finvals (map (fun x => fmul (fz (if onlineb x then 1 else 0)) (match s_size x with Some s => Fin (s / c) | None => NaN end)) k)) =
  capacity (filter onlineb k) / c.
Proof.
  intros c. unfold capacity. induction k as [| u k IH]; [cbn; unfold Qcdiv; qlra |].
  cbn [map filter]. set (T := map _ k) in *. clearbody T. unfold size_or_0 in *. destruct (s_size u) as [s |] eqn:Es.
  - cbn [fz fmul finvals]. rewrite qsum_cons, IH. destruct (onlineb u).
    + cbn [map]. rewrite qsum_cons, Es. change (qz 1) with 1. unfold Qcdiv. ring.
    + change (qz 0) with 0. ring.
  - cbn [fmul fz finvals]. rewrite IH. destruct (onlineb u); [| reflexivity]. cbn [map]. rewrite qsum_cons, Es. f_equal. ring.
Qed.

Lemma row_lowest : fsum (zip (fun (b : bool) f => fmul (fz (if b then 1 else 0)) f) (looks_online thr row) (fractions sizes)) = Fin (online_share l).
Proof.
  rewrite row_online, row_fractions, zip_map. rewrite fsum_noinf.
  - f_equal. unfold share_fl. apply qsum_shares.
  - intros x Hx. apply in_map_iff in Hx. destruct Hx as (u & <- & _). unfold share_fl. destruct (s_size u); split; discriminate.
Qed.

Lemma share_pos : specific_powers l <> [] -> 0 < online_share l.
Proof.
  intros H. assert (exists u s, In u l /\ onlineb u = true /\ s_size u = Some s) as (u & s & Hu & Ho & Es).
  { clear - H. induction l as [| u k IH]; [contradiction |]. cbn in H. destruct (s_size u) as [s |] eqn:Es.
    - destruct (onlineb u) eqn:Eo; [exists u, s; repeat split; try assumption; left; reflexivity |].
      destruct (IH H) as (v & s' & Hv & R). exists v, s'. split; [right; exact Hv | exact R].
    - destruct (IH H) as (v & s' & Hv & R). exists v, s'. split; [right; exact Hv | exact R]. }
  unfold online_share. apply Qc_lt_div; [exact (capacity_pos u s Hu Es) |].
  assert (In u (filter onlineb l)) as Hf by (apply filter_In; split; assumption).
  pose proof (capacity_ge (filter onlineb l) u s (fun v Hv => proj1 (proj1 (filter_In _ _ _) Hv)) Hf Es).
  pose proof (sizes_pos u s Hu Es). qlra.
Qed.

Lemma share_le_1 : online_share l <= 1.
Proof.
  unfold online_share.
  assert (forall k, (forall u, In u k -> In u l) -> capacity (filter onlineb k) <= capacity k /\ 0 <= capacity k) as G.
  { unfold capacity. induction k as [| u k IH]; intros Hk; [split; apply Qcle_refl |].
    destruct (IH (fun v H => Hk v (or_intror H))) as [I1 I2]. pose proof (size_nonneg u (Hk u (or_introl eq_refl))) as P.
    cbn [filter map]. rewrite qsum_cons. destruct (onlineb u); cbn [map]; rewrite ?qsum_cons; split; qlra. }
  destruct (G l (fun u H => H)) as [G1 G2]. destruct (Qc_eq_dec (capacity l) 0) as [E | E].
  - rewrite E. unfold Qcdiv. replace (/ 0) with 0 by reflexivity. qlra.
  - apply Qc_div_le; [| qlra]. destruct (Qcle_lt_or_eq _ _ G2) as [K | K]; [exact K |]. exfalso. apply E. symmetry. exact K.
Qed.

(** *** The loss *)
Lemma row_all : forallb (fun b => b) (looks_online thr row) = false <-> exists u, In u l /\ ~ online u.
Proof.
  rewrite row_online. clear. induction l as [| u k IH]; cbn; [split; [discriminate | intros (u & [] & _)] |].
  destruct (onlineb u) eqn:E; cbn.
  - rewrite IH. split; intros (v & Hv & Ho).
    + exists v. auto.
    + destruct Hv as [<- | Hv]; [apply online_iff in E; contradiction |]. exists v. auto.
  - split; [| reflexivity]. intros _. exists u. split; [left; reflexivity |]. intros K. apply online_iff in K. congruence.
Qed.

Lemma smallest_unique : forall x y, smallest_offline l x -> smallest_offline l y -> x = y.
Proof.
  intros x y [[X1 X2] | [X1 ->]] [[Y1 Y2] | [Y1 ->]].
  - apply Qcle_antisym; auto.
  - exfalso. exact (Y1 x X1).
  - exfalso. exact (X1 y Y1).
  - reflexivity.
Qed.

Lemma full_unique : forall x y, full_power l x -> full_power l y -> x = y.
Proof. intros x y [_ ->] [_ ->]. reflexivity. Qed.

Lemma clip_fin : forall lo x, clip_upper (fz 1) (clip_lower (Fin lo) (Fin x)) = Fin (qmin 1 (qmax lo x)).
Proof.
  intros lo x. unfold clip_upper, clip_lower, qmin, qmax, fgt, fz, flt.
  destruct (qlt x lo) eqn:E1; destruct (qle lo x) eqn:E2; qb; try (exfalso; qlra).
  - destruct (qlt (qz 1) lo) eqn:E3; destruct (qle 1 lo) eqn:E4; qb; try (exfalso; qlra); try reflexivity.
    f_equal. change (qz 1) with 1 in *. apply Qcle_antisym; qlra.
  - destruct (qlt (qz 1) x) eqn:E3; destruct (qle 1 x) eqn:E4; qb; try (exfalso; qlra); try reflexivity.
    f_equal. change (qz 1) with 1 in *. apply Qcle_antisym; qlra.
Qed.

Lemma row_loss_spec : forall limit p, 0 <= p -> exists x0 x,
  row_loss (length l) thr sizes limit (Fin p) row = Fin x /\ uncapped_loss l p x0 /\ capped limit p x0 x.
Proof.
  intros limit p Hp. unfold row_loss. destruct row_smallest as (s & Hs & ->). rewrite row_lowest.
  set (full := fmul (fmean (zip fdiv (reporting thr row) sizes)) (fz (Z.of_nat (length l)))).
  set (dt := fgt _ _ && _). set (f := clip_upper _ _). cbv zeta.
  assert (exists x0, (if dt then fmul (fdiv (fsub (fz 1) f) f) (Fin p) else fz 0) = Fin x0 /\ uncapped_loss l p x0) as (x0 & E0 & U0).
  { destruct row_full as [[Z E] | (F & HF & E)]; fold full in E.
    - exists 0. assert (dt = false) as -> by (unfold dt; rewrite E; reflexivity). split; [reflexivity |].
      split; [| reflexivity]. intros (_ & F & s' & [HF _] & _). contradiction.
    - destruct (Qc_eq_dec F 0) as [-> | NF].
      + exists 0. assert (dt = false) as ->.
        { unfold dt. rewrite E. cbn [fdiv]. change (qeq 0 0) with true. cbn iota.
          unfold inf_sgn. destruct (qlt 0 p) eqn:Ep; [reflexivity |]. destruct (qlt p 0) eqn:En; [qb; exfalso; qlra | reflexivity]. }
        split; [reflexivity |]. split; [| reflexivity]. intros (_ & F & s' & HF' & NF & _). exfalso. apply NF. exact (full_unique _ _ HF' HF).
      + assert (fdiv (Fin p) full = Fin (p / F)) as Ed.
        { rewrite E. cbn. destruct (qeq F 0) eqn:EF; [apply qeq_spec in EF; contradiction | reflexivity]. }
        assert (dt = true <-> downtime l p) as Hdt.
        { unfold dt. rewrite Ed. rewrite andb_true_iff, negb_true_iff, row_all. unfold fgt. cbn [fsub fneg fadd fz fmul flt ff].
          unfold downtime. split.
          - intros [H1 H2]. apply qlt_spec in H1. split; [exact H2 |]. exists F, s. repeat split; try assumption; try apply HF; change (qz 1) with 1 in H1; qlra.
          - intros (H2 & F' & s' & HF' & _ & Hs' & H1). rewrite (full_unique _ _ HF' HF) in H1. rewrite (smallest_unique _ _ Hs' Hs) in H1.
            split; [| exact H2]. apply qlt_spec. change (qz 1) with 1. qlra. }
        destruct dt.
        * assert (f = Fin (qmin 1 (qmax (online_share l) (p / F)))) as Ef by (unfold f; rewrite Ed; apply clip_fin).
          set (g := qmin 1 _) in Ef.
          assert (0 < g) as Pg.
          { pose proof (share_pos (proj1 HF)). unfold g, qmin, qmax. qcases; qlra. }
          assert (fdiv (fsub (fz 1) f) f = Fin ((1 - g) / g)) as Eq.
          { rewrite Ef. cbn. destruct (qeq g 0) eqn:Eg; [apply qeq_spec in Eg; rewrite Eg in Pg; discriminate | reflexivity]. }
          exists (p / g - p). split.
          -- rewrite Eq. cbn. f_equal. field. apply Qc_pos_neq. exact Pg.
          -- split; [| intros K; exfalso; apply K; apply Hdt; reflexivity]. intros _. exists g. split; [| reflexivity].
             exists F. split; [exact HF | reflexivity].
        * exists 0. split; [reflexivity |]. split; [| reflexivity]. intros K. apply Hdt in K. discriminate. }
  rewrite E0. destruct limit as [[| | m |] |]; cbn [fadd fgt flt].
  - exists x0, x0. split; [reflexivity |]. split; [exact U0 | reflexivity].
  - exists x0, 0. split; [reflexivity |]. split; [exact U0 | reflexivity].
  - exists x0, (if qlt m (x0 + p) then qmax 0 (m - p) else x0). split; [| split; [exact U0 | reflexivity]].
    destruct (qlt m (x0 + p)); [| reflexivity]. cbn [fsub fneg fadd]. unfold clip_lower, flt, fz, qmax. change (qz 0) with 0.
    change (m + - p) with (m - p). destruct (qlt (m - p) 0) eqn:E1; destruct (qle 0 (m - p)) eqn:E2; qb; try (exfalso; qlra); reflexivity.
  - exists x0, x0. split; [reflexivity |]. split; [exact U0 | reflexivity].
  - exists x0, x0. split; [reflexivity |]. split; [exact U0 | reflexivity].
Qed.

Lemma row_loss_missing : forall limit, row_loss (length l) thr sizes limit NaN row = Fin 0.
Proof.
  intros limit. unfold row_loss. change (fdiv NaN ?x) with NaN. change (fsub (fz 1) NaN) with NaN. cbv zeta.
  match goal with |- context [fgt NaN ?x] => assert (fgt NaN x = false) as -> by (unfold fgt; destruct x; reflexivity) end.
  cbn [andb]. destruct limit as [[| | m |] |]; reflexivity.
Qed.
End Row.
