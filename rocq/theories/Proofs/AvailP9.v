(** The error distributions. *)

From Coq Require Import QArith Qcanon List ZArith Bool Arith Lia Permutation Sorted.
From Verif.Base Require Import QcExtra ISort Quantile Fl TimeSeries Rolling Segments.
From Verif.Spec Require Import Stats Energy Availability.
From Verif.Model Require Import Energy Clipping Availability.
From Verif.Proofs Require Import StatsP FiltersP EnergyP6 EnergyP7 ClipP4 AvailP AvailP2 AvailP3 AvailP4 AvailP5 AvailP6 AvailP7.
Import ListNotations.
Open Scope list_scope.
Open Scope Qc_scope.

Lemma tails_nth : forall A (l : list A) s, nth_error (tails l) s = if (s <? length l)%nat then Some (skipn s l) else None.
Proof.
  intros A l. induction l as [| x l IH]; intros s; [destruct s; reflexivity |]. destruct s as [| s]; [reflexivity |]. cbn [tails nth_error length skipn]. rewrite IH. reflexivity.
Qed.
Lemma tails_length : forall A (l : list A), length (tails l) = length l.
Proof. induction l as [| x l IH]; [reflexivity |]. cbn. rewrite IH. reflexivity. Qed.

Lemma pick_rows : forall A (d : A) (b : nat -> bool) l, pick (map b (seq 0 (length l))) l = map (fun i => nth i l d) (filter b (seq 0 (length l))).
Proof.
  intros A d b l. unfold pick. assert (forall l k, map snd (filter fst (combine (map b (seq k (length l))) l)) = map (fun i => nth (i - k) l d) (filter b (seq k (length l)))) as K.
  { clear l. induction l as [| x l IH]; intros k; [reflexivity |]. cbn [length seq map combine filter fst].
    assert (map (fun i => nth (i - k) (x :: l) d) (filter b (seq (S k) (length l))) = map (fun i => nth (i - S k) l d) (filter b (seq (S k) (length l)))) as E.
    { apply map_ext_in. intros i Hi. apply filter_In in Hi. destruct Hi as [Hi _]. apply in_seq in Hi. replace (i - k)%nat with (S (i - S k)) by lia. reflexivity. }
    destruct (b k); cbn [map snd]; rewrite IH, E; [| reflexivity]. replace (k - k)%nat with 0%nat by lia. reflexivity. }
  rewrite K. apply map_ext. intros i. rewrite Nat.sub_0_r. reflexivity.
Qed.

(** ** Windows *)

Lemma window_sum_shown : forall (f : nat -> option Qc) n win,
  window_sum n (map (fun i => shown (f i)) win) = if (n <=? length win)%nat then shown (window_total f (firstn n win)) else NaN.
Proof.
  intros f n win. unfold window_sum. rewrite firstn_map, map_map, map_length, firstn_length.
  destruct (Nat.leb_spec n (length win)) as [L | L].
  - rewrite Nat.min_l by exact L. rewrite Nat.eqb_refl. cbn [andb]. generalize (firstn n win) as k. induction k as [| i k IH]; [reflexivity |].
    cbn [map forallb window_total]. destruct (f i) as [x |]; cbn [shown noninf notnan isnan negb andb]; [| reflexivity].
    destruct (window_total f k) as [y |]; cbn [shown] in *.
    + destruct (forallb notnan (map (fun x0 => noninf (shown (f x0))) k)); [| discriminate].
      assert (noinf (map (fun x0 => noninf (shown (f x0))) k)) as N by (intros z Hz; apply in_map_iff in Hz; destruct Hz as (j & <- & _); destruct (f j); split; discriminate).
      rewrite fsum_noinf in IH by exact N. rewrite fsum_noinf by (intros z [<- | Hz]; [split; discriminate | apply N; exact Hz]). injection IH as IH. cbn [finvals]. rewrite qsum_cons, IH. reflexivity.
    + destruct (forallb notnan (map (fun x0 => noninf (shown (f x0))) k)) eqn:E; [| reflexivity]. exfalso.
      assert (noinf (map (fun x0 => noninf (shown (f x0))) k)) as N by (intros z Hz; apply in_map_iff in Hz; destruct Hz as (j & <- & _); destruct (f j); split; discriminate).
      rewrite fsum_noinf in IH by exact N. discriminate.
  - rewrite Nat.min_r by lia. destruct (Nat.eqb_spec (length win) n); [lia | reflexivity].
Qed.

Lemma window_total_pos : forall f win x, win <> [] -> (forall i y, In i win -> f i = Some y -> 0 < y) -> window_total f win = Some x -> 0 < x.
Proof.
  intros f win. induction win as [| i win IH]; intros x N H E; [contradiction |]. cbn [window_total] in E. destruct (f i) as [y |] eqn:Ef; [| discriminate].
  pose proof (H i y (or_introl eq_refl) Ef) as Py. destruct win as [| j win].
  - cbn in E. injection E as <-. qlra.
  - destruct (window_total f (j :: win)) as [z |] eqn:Ez; [| discriminate]. injection E as <-.
    assert (0 < z) by (apply IH; [discriminate | intros k y' Hk Hy; apply (H k y'); [right; exact Hk | exact Hy] | reflexivity]). qlra.
Qed.

Lemma finvals_shown : forall l, finvals (map shown l) = knowns l.
Proof. induction l as [| [x |] l IH]; cbn; [reflexivity | rewrite IH; reflexivity | exact IH]. Qed.
Lemma knowns_app : forall a b, knowns (a ++ b) = knowns a ++ knowns b.
Proof. induction a as [| [x |] a IH]; intros b; cbn; [reflexivity | rewrite IH; reflexivity | apply IH]. Qed.
Lemma noinf_shown : forall l, noinf (map shown l).
Proof. intros l x Hx. apply in_map_iff in Hx. destruct Hx as ([q |] & <- & _); split; discriminate. Qed.

Section Windows.
Variables (f g : nat -> option Qc) (rows : list nat) (k : nat).
Hypothesis k_pos : (1 <= k <= length rows)%nat.
Hypothesis g_pos : forall i y, In i rows -> g i = Some y -> 0 < y.

Lemma in_window : forall s i, In i (firstn k (skipn s rows)) -> In i rows.
Proof.
  intros s i H. rewrite <- (firstn_skipn s rows). apply in_or_app. right. rewrite <- (firstn_skipn k (skipn s rows)). apply in_or_app. left. exact H.
Qed.

Lemma windows_code : window_errors k (map (fun i => shown (f i)) rows) (map (fun i => shown (g i)) rows) =
  map shown (map (window_error f g) (windows k rows) ++ map (fun _ => None) (seq (S (length rows) - k) (k - 1))).
Proof.
  set (E := fun s => if (k <=? length rows - s)%nat then window_error f g (firstn k (skipn s rows)) else None).
  assert (window_errors k (map (fun i => shown (f i)) rows) (map (fun i => shown (g i)) rows) = map (fun s => shown (E s)) (seq 0 (length rows))) as ->.
  { apply nth_error_ext. intros s. unfold window_errors. rewrite zip_nth, !tails_nth, !map_length, nth_error_map_some, nth_error_seq.
    destruct (Nat.ltb_spec s (length rows)) as [L | L]; [| reflexivity]. cbn [option_map Nat.add]. rewrite !skipn_map, !window_sum_shown, skipn_length. unfold E.
    destruct (Nat.leb_spec k (length rows - s)) as [M | M]; [| reflexivity]. f_equal. unfold window_error.
    destruct (window_total f (firstn k (skipn s rows))) as [x |]; [| reflexivity]. destruct (window_total g (firstn k (skipn s rows))) as [y |] eqn:Ey; [| reflexivity].
    cbn [shown]. unfold fdiv. assert (qeq y 0 = false) as ->; [| reflexivity]. apply qeq_false. apply Qc_pos_neq.
    apply (window_total_pos g (firstn k (skipn s rows))); [| intros i z Hi Hz; apply (g_pos i z); [apply (in_window s); exact Hi | exact Hz] | exact Ey].
    intros C. apply (f_equal (@length nat)) in C. rewrite firstn_length, skipn_length in C. cbn in C. lia. }
  rewrite <- (map_map E shown). f_equal. replace (length rows) with ((S (length rows) - k) + (k - 1))%nat at 1 by lia. rewrite seq_app, map_app. f_equal.
  - unfold windows. rewrite map_map. apply map_ext_in. intros s Hs. apply in_seq in Hs. unfold E. destruct (Nat.leb_spec k (length rows - s)); [reflexivity | lia].
  - apply map_ext_in. intros s Hs. apply in_seq in Hs. unfold E. destruct (Nat.leb_spec k (length rows - s)); [lia | reflexivity].
Qed.

Lemma windows_quantile : forall q, 0 <= q -> q <= 1 ->
  let errors := knowns (map (window_error f g) (windows k rows)) in
  let v := fquantile q (window_errors k (map (fun i => shown (f i)) rows) (map (fun i => shown (g i)) rows)) in
  (errors = [] -> v = NaN) /\ (errors <> [] -> v = Fin (qquantile q errors)).
Proof.
  intros q H0 H1 errors v. unfold v. rewrite windows_code. set (l := map (window_error f g) (windows k rows) ++ _).
  assert (finvals (map shown l) = errors) as EF.
  { rewrite finvals_shown. unfold l. rewrite knowns_app. assert (forall m, knowns (map (fun _ : nat => @None Qc) m) = []) as -> by (induction m; auto). apply app_nil_r. }
  split; intros E.
  - unfold fquantile. rewrite dropna_noinf by apply noinf_shown. rewrite EF, E. reflexivity.
  - rewrite fquantile_noinf; [| apply noinf_shown | rewrite EF; exact E | exact H0 | exact H1]. rewrite EF. reflexivity.
Qed.

Lemma has_window_spec : has_window k (map (fun i => shown (f i)) rows) (map (fun i => shown (g i)) rows) = true <->
  exists win, In win (windows k rows) /\ (window_total f win <> None \/ window_total g win <> None).
Proof.
  assert (forall (p : nat -> option Qc), (exists l, In l (tails (map (fun i => shown (p i)) rows)) /\ notnan (window_sum k l) = true) <->
            exists win, In win (windows k rows) /\ window_total p win <> None) as K.
  { intros p. split.
    - intros (l & Hl & Hw). apply In_nth_error in Hl. destruct Hl as [s Hs]. rewrite tails_nth, map_length in Hs. destruct (Nat.ltb_spec s (length rows)) as [L |]; [| discriminate].
      injection Hs as <-. rewrite skipn_map, window_sum_shown, skipn_length in Hw. destruct (Nat.leb_spec k (length rows - s)) as [M |]; [| discriminate].
      exists (firstn k (skipn s rows)). split; [| intros E; rewrite E in Hw; discriminate]. unfold windows. apply in_map_iff. exists s. split; [reflexivity |]. apply in_seq. lia.
    - intros (win & Hw & N). unfold windows in Hw. apply in_map_iff in Hw. destruct Hw as (s & <- & Hs). apply in_seq in Hs.
      exists (skipn s (map (fun i => shown (p i)) rows)). split.
      + apply nth_error_In with (n := s). rewrite tails_nth, map_length. destruct (Nat.ltb_spec s (length rows)); [reflexivity | lia].
      + rewrite skipn_map, window_sum_shown, skipn_length. destruct (Nat.leb_spec k (length rows - s)); [| lia]. destruct (window_total p _); [reflexivity | contradiction]. }
  unfold has_window. rewrite existsb_exists. split.
  - intros (l & Hl & Hw). apply in_app_or in Hl. destruct Hl as [Hl | Hl].
    + destruct (proj1 (K f) (ex_intro _ l (conj Hl Hw))) as (win & H1 & H2). exists win. auto.
    + destruct (proj1 (K g) (ex_intro _ l (conj Hl Hw))) as (win & H1 & H2). exists win. auto.
  - intros (win & H1 & [H2 | H2]).
    + destruct (proj2 (K f) (ex_intro _ win (conj H1 H2))) as (l & H3 & H4). exists l. split; [apply in_or_app; left; exact H3 | exact H4].
    + destruct (proj2 (K g) (ex_intro _ win (conj H1 H2))) as (l & H3 & H4). exists l. split; [apply in_or_app; right; exact H3 | exact H4].
Qed.
End Windows.

Lemma lengths_In : forall N x, (0 < N)%nat -> In x (window_lengths N) <-> exists k, (1 <= k)%nat /\ (2 ^ S k <= N)%nat /\ x = (2 ^ k)%nat.
Proof.
  intros N x HN. unfold window_lengths. rewrite in_map_iff. split.
  - intros (k & <- & Hk). apply in_seq in Hk. exists k. split; [lia |]. split; [| reflexivity]. apply Nat.log2_le_pow2; lia.
  - intros (k & Hk & HP & ->). exists k. split; [reflexivity |]. apply in_seq. apply Nat.log2_le_pow2 in HP; lia.
Qed.

Lemma points_spec : forall q f g rows, (0 < length rows)%nat -> 0 <= q -> q <= 1 -> (forall i y, In i rows -> g i = Some y -> 0 < y) ->
  error_points q f g rows (error_bound q (map (fun i => shown (f i)) rows) (map (fun i => shown (g i)) rows)).
Proof.
  intros q f g rows HN H0 H1 Hg. unfold error_bound. rewrite map_length. split.
  - rewrite map_map. cbn [fst]. rewrite <- (map_map (fun n => n) Z.of_nat), map_id.
    assert (StronglySorted lt (filter (fun n => has_window n (map (fun i => shown (f i)) rows) (map (fun i => shown (g i)) rows)) (window_lengths (length rows)))) as HS.
    { assert (forall p l, StronglySorted lt l -> StronglySorted lt (filter p l)) as FS.
      { intros p l H. induction H as [| x l H IH F]; [constructor |]. cbn [filter]. destruct (p x); [| exact IH]. constructor; [exact IH |].
        rewrite Forall_forall in *. intros y Hy. apply filter_In in Hy. apply F. apply Hy. }
      assert (forall m s, StronglySorted lt (map (fun k => (2 ^ k)%nat) (seq s m))) as PS.
      { induction m as [| m IH]; intros s; [constructor |]. cbn [seq map]. constructor; [apply IH |]. apply Forall_forall. intros y Hy. apply in_map_iff in Hy. destruct Hy as (j & <- & Hj). apply in_seq in Hj.
        apply Nat.pow_lt_mono_r; lia. }
      apply FS. apply PS. }
    induction HS as [| x l H IH F]; [constructor |]. cbn [map]. constructor; [exact IH |]. rewrite Forall_forall in *. intros y Hy. apply in_map_iff in Hy. destruct Hy as (j & <- & Hj). apply F in Hj. lia.
  - intros x y. rewrite in_map_iff.
    assert (forall k, (1 <= k)%nat -> (2 ^ S k <= length rows)%nat -> (1 <= 2 ^ k <= length rows)%nat) as HK.
    { intros k Hk HP. assert (2 ^ k <> 0)%nat by (apply Nat.pow_nonzero; lia). cbn [Nat.pow] in HP. lia. }
    split.
    + intros (m & E & Hm). apply filter_In in Hm. destruct Hm as [Hm Hw]. apply lengths_In in Hm; [| exact HN]. destruct Hm as (k & Hk & HP & ->).
      apply (has_window_spec f g rows (2 ^ k) (HK k Hk HP)) in Hw. injection E as <- Ey. exists k. split; [exact Hk |]. split; [exact HP |]. split; [reflexivity |]. split; [exact Hw |].
      cbv zeta. destruct (windows_quantile f g rows (2 ^ k) (HK k Hk HP) Hg q H0 H1) as [Q1 Q2].
      destruct (knowns (map (window_error f g) (windows (2 ^ k) rows))) as [| e l] eqn:Ee.
      * left. split; [reflexivity |]. rewrite <- Ey. apply Q1. reflexivity.
      * right. split; [discriminate |]. exists (qquantile q (e :: l)). split; [apply quantile_is; [discriminate | exact H0 | exact H1] |]. rewrite <- Ey. apply Q2. discriminate.
    + intros (k & Hk & HP & -> & Hw & Hy). exists (2 ^ k)%nat. split.
      * f_equal. destruct (windows_quantile f g rows (2 ^ k) (HK k Hk HP) Hg q H0 H1) as [Q1 Q2]. cbv zeta in Hy. destruct Hy as [[E ->] | [E (v & Hv & ->)]].
        -- apply Q1. exact E.
        -- rewrite (Q2 E). f_equal. symmetry.
           rewrite (is_percentile_unique (qz 100 * q) _ v E); [f_equal; field; discriminate | | | exact Hv].
           ++ apply Qc_mul_nonneg; [discriminate | exact H0].
           ++ assert (0 <= 1 - q) by qlra. assert (0 <= qz 100 * (1 - q)) by (apply Qc_mul_nonneg; [discriminate | assumption]). qlra.
      * apply filter_In. split; [apply lengths_In; [exact HN | exists k; auto] |]. apply (has_window_spec f g rows (2 ^ k) (HK k Hk HP)). exact Hw.
Qed.
