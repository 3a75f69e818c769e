(** All outages; conservation. *)

From Coq Require Import QArith Qcanon List ZArith Bool Arith Lia Permutation Sorted.
From Verif.Base Require Import QcExtra ISort Quantile Fl TimeSeries Rolling Segments.
From Verif.Spec Require Import Stats Energy Availability.
From Verif.Model Require Import Energy Availability.
From Verif.Proofs Require Import EnergyP6 EnergyP7 ClipP4 AvailP AvailP2 AvailP3 AvailP4 AvailP5.
Import ListNotations.
Open Scope list_scope.
Open Scope Qc_scope.

Definition place (o : outage) : nat * nat := (o_start o, o_end o).
Definition inside (o : outage) (i : nat) : Prop := (o_start o <= i <= o_end o)%nat.

Lemma fill_all_rows : forall freq t0 w n power q os, (0 < w)%Z -> length power = n ->
  (forall i, (i < n)%nat -> nth_error power i = Some (Fin (q i))) ->
  in_order (map place os) -> (forall o, In o os -> (o_start o < o_end o < n)%nat) ->
  forall lost corrected, length lost = n -> length corrected = n ->
  exists lost' corrected', fill_outages freq (evenly t0 w n) power os (lost, corrected) = Ok (lost', corrected') /\
    length lost' = n /\ length corrected' = n /\
    forall i, (i < n)%nat ->
      ((forall o, In o os -> ~ inside o i) -> nth_error lost' i = nth_error lost i /\ nth_error corrected' i = nth_error corrected i) /\
      (forall o, In o os -> inside o i ->
        nth_error lost' i = option_map (fun x => fadd x (fdiv (fmul (Fin (q i)) (o_loss o)) (Fin (energy_after (hours w) q (o_start o) (o_end o))))) (nth_error lost i) /\
        nth_error corrected' i = Some (if (i =? o_start o)%nat then NaN else
          fadd (o_energy_start o) (fmul (Fin (energy_after (hours w) q (o_start o) i)) (fdiv (o_actual o) (Fin (energy_after (hours w) q (o_start o) (o_end o))))))).
Proof.
  intros freq t0 w n power q os Hw Lp Hq. induction os as [| o os IH]; intros HO HB lost corrected Ll Lc.
  - exists lost, corrected. split; [reflexivity |]. split; [exact Ll |]. split; [exact Lc |]. intros i Hi. split; [auto | intros o []].
  - pose proof (HB o (or_introl eq_refl)) as Bo. apply StronglySorted_inv in HO. destruct HO as [HO F]. rewrite Forall_forall in F.
    destruct (fill_rows freq t0 w n power q o lost corrected Hw Lp Ll Lc (fun i H => Hq i ltac:(lia)) ltac:(lia) ltac:(lia)) as (lost1 & corr1 & E1 & L1 & L2 & R1).
    destruct (IH HO (fun o' H => HB o' (or_intror H)) lost1 corr1 L1 L2) as (lost' & corr' & E & L3 & L4 & R).
    assert (forall o', In o' os -> (o_end o < o_start o')%nat) as Hlt by (intros o' H; exact (F (place o') (in_map place _ _ H))).
    exists lost', corr'. split; [cbn [fill_outages]; rewrite E1; exact E |]. split; [exact L3 |]. split; [exact L4 |]. intros i Hi.
    destruct (R1 i Hi) as (A1 & A2 & A3 & A4). destruct (R i Hi) as (B1 & B2). split.
    + intros H. assert (forall o', In o' os -> ~ inside o' i) as H' by (intros o' Ho'; apply H; right; exact Ho').
      destruct (B1 H') as [-> ->]. apply A1. pose proof (H o (or_introl eq_refl)) as K. unfold inside in K. lia.
    + intros o' [<- | Ho'] Hin.
      * assert (forall o', In o' os -> ~ inside o' i) as H'.
        { intros o' Ho' K. pose proof (Hlt o' Ho'). unfold inside in *. lia. }
        destruct (B1 H') as [-> ->]. unfold inside in Hin. split; [exact (A2 Hin) |]. destruct (Nat.eqb_spec i (o_start o)) as [-> | N]; [apply A3; reflexivity | apply A4; lia].
      * destruct (B2 o' Ho' Hin) as [-> ->]. split; [| reflexivity]. f_equal. apply A1. pose proof (Hlt o' Ho'). unfold inside in Hin. lia.
Qed.

(** What is known of the outages. *)
Definition settled (o : outage) : Prop :=
  (exists loss actual start, o_loss o = Fin loss /\ o_actual o = Fin actual /\ o_energy_start o = Fin start) \/
  (o_loss o = NaN /\ o_actual o = NaN /\ (o_energy_start o = NaN \/ exists start, o_energy_start o = Fin start)).

Lemma fill_all_spec : forall freq t0 w n power q os meter, (0 < w)%Z -> length power = n -> length meter = n ->
  (forall i, (i < n)%nat -> nth_error power i = Some (Fin (q i))) ->
  in_order (map place os) -> (forall o, In o os -> (o_start o < o_end o < n)%nat /\ settled o /\ energy_after (hours w) q (o_start o) (o_end o) <> 0) ->
  exists lost corrected, fill_outages freq (evenly t0 w n) power os (map (fun _ => fz 0) (evenly t0 w n), meter) = Ok (lost, corrected) /\
    length lost = n /\ length corrected = n /\
    (forall i, (i < n)%nat -> (forall o, In o os -> ~ inside o i) -> nth_error lost i = Some (Fin 0) /\ nth_error corrected i = nth_error meter i) /\
    (forall o, In o os -> (forall loss actual start, o_loss o = Fin loss -> o_actual o = Fin actual -> o_energy_start o = Fin start ->
         rebuilt (hours w) q (o_start o) (o_end o) loss actual start lost corrected) /\
       (o_loss o = NaN -> blank (o_start o) (o_end o) lost corrected)).
Proof.
  intros freq t0 w n power q os meter Hw Lp Lm Hq HO HB.
  destruct (fill_all_rows freq t0 w n power q os Hw Lp Hq HO (fun o H => proj1 (HB o H)) (map (fun _ => fz 0) (evenly t0 w n)) meter) as (lost & corrected & E & L1 & L2 & R).
  { unfold evenly. rewrite !map_length. apply seq_length. } { exact Lm. }
  assert (forall i, (i < n)%nat -> nth_error (map (fun _ => fz 0) (evenly t0 w n)) i = Some (Fin 0)) as Z0.
  { intros i Hi. rewrite nth_error_map_some. change (evenly t0 w n) with (grid t0 w n). rewrite grid_nth. destruct (Nat.ltb_spec i n); [reflexivity | lia]. }
  exists lost, corrected. split; [exact E |]. split; [exact L1 |]. split; [exact L2 |]. split.
  - intros i Hi H. destruct (R i Hi) as [K _]. destruct (K H) as [-> ->]. split; [apply Z0; exact Hi | reflexivity].
  - intros o Ho. destruct (HB o Ho) as (Bo & So & To). split.
    + intros loss actual start E1 E2 E3 i Hi. destruct (R i ltac:(lia)) as [_ K]. destruct (K o Ho Hi) as [-> ->]. rewrite Z0 by lia. rewrite E1, E2, E3.
      unfold fdiv. cbn [fmul]. assert (qeq (energy_after (hours w) q (o_start o) (o_end o)) 0 = false) as -> by (apply qeq_false; exact To).
      cbn [option_map fadd fmul]. split; [do 2 f_equal; field; exact To |]. destruct (i =? o_start o)%nat; [reflexivity |]. do 2 f_equal. field. exact To.
    + intros EL i Hi. destruct (R i ltac:(lia)) as [_ K]. destruct (K o Ho Hi) as [-> ->]. rewrite Z0 by lia. rewrite EL. split; [reflexivity |].
      destruct So as [(loss & ac & st & S1 & S2 & S3) | (S1 & S2 & S3)]; [congruence |]. rewrite S2. destruct (i =? o_start o)%nat; [reflexivity |].
      cbn [fdiv fmul]. destruct S3 as [-> | [st ->]]; reflexivity.
Qed.

(** ** Conservation *)

Lemma sum_rows_S : forall f a b, (a <= b)%nat -> sum_rows f a b = f a + sum_rows f (S a) b.
Proof. intros. unfold sum_rows. rewrite rows_cons by assumption. cbn [map]. apply qsum_cons. Qed.
Lemma sum_rows_ext : forall f g a b, (forall i, (a <= i <= b)%nat -> f i = g i) -> sum_rows f a b = sum_rows g a b.
Proof. intros f g a b H. unfold sum_rows. f_equal. apply map_ext_in. intros i Hi. apply H. apply rows_In. exact Hi. Qed.
Lemma sum_rows_scale : forall c f a b, sum_rows (fun i => c * f i) a b = c * sum_rows f a b.
Proof. intros. unfold sum_rows. apply qsum_map_scale. Qed.

Lemma rebuilt_conserves : forall h q a b loss actual start lost corrected, (a < b)%nat -> energy_after h q a b <> 0 ->
  rebuilt h q a b loss actual start lost corrected ->
  sum_rows (fun i => known_at lost i * h) (S a) b = loss /\
  sum_rows (fun i => known_at lost i * h) a b = loss + loss * (q a * h / energy_after h q a b) /\
  nth_error corrected b = Some (Fin (start + actual)).
Proof.
  intros h q a b loss actual start lost corrected Hab HT R. set (T := energy_after h q a b) in *.
  assert (forall i, (a <= i <= b)%nat -> known_at lost i * h = (loss / T) * (q i * h)) as K.
  { intros i Hi. destruct (R i Hi) as [E _]. unfold known_at. rewrite (nth_error_nth _ _ _ E). cbn [known_or_0]. fold T. ring. }
  assert (sum_rows (fun i => known_at lost i * h) (S a) b = loss) as E1.
  { rewrite (sum_rows_ext _ (fun i => (loss / T) * (q i * h))) by (intros i Hi; apply K; lia). rewrite sum_rows_scale.
    change (sum_rows (fun i => q i * h) (S a) b) with T. field. exact HT. }
  split; [exact E1 |]. split.
  - rewrite sum_rows_S by lia. rewrite E1, K by lia. field. exact HT.
  - destruct (R b ltac:(lia)) as [_ ->]. destruct (Nat.eqb_spec b a); [lia |]. fold T. do 2 f_equal. field. exact HT.
Qed.
