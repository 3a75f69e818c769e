(** Lemmas about normalisation. *)

From Coq Require Import QArith Qcanon List ZArith Bool Sorted Lia.
From Verif.Base Require Import QcExtra ISort Quantile Fl TimeSeries Calendar Rolling Segments.
From Verif.Spec Require Import Stats Interp Energy Filters Normalization.
From Verif.Model Require Import Interpolation Energy Filters Normalization.
From Verif.Proofs Require Import StatsP FlP InterpP EnergyP EnergyP6 FiltersP.
Import ListNotations.
Open Scope Qc_scope.

(** ** Alignment *)

Lemma align_values : forall a b t p q, NoDup (times a) -> NoDup (times b) ->
  (In (t, (p, q)) (align a b) <->
   (In t (times a) \/ In t (times b)) /\ value_at a t p /\ value_at b t q).
Proof.
  intros a b t p q Na Nb. unfold align. destruct (same_index (times a) (times b)) eqn:E.
  - apply same_index_iff in E. split.
    + intros H. apply in_map_iff in H. destruct H as ([[u v] [u' w]] & E1 & H). cbn [fst snd] in E1.
      injection E1 as -> -> ->. assert (t = u') as <- by (eapply combine_times; [exact E | exact H]).
      pose proof (in_combine_l _ _ _ _ H) as H1. pose proof (in_combine_r _ _ _ _ H) as H2.
      split; [left; apply in_map_iff; exists (t, p); auto |]. split; left; assumption.
    + intros (Ht & Ha & Hb).
      assert (In t (times a)) as Hta by (destruct Ht as [Ht | Ht]; [exact Ht | rewrite E; exact Ht]).
      destruct Ha as [Ha | [_ Ha]]; [| contradiction].
      destruct Hb as [Hb | [_ Hb]]; [| rewrite <- E in Hb; contradiction].
      apply in_map_iff. exists ((t, p), (t, q)). split; [reflexivity |].
      clear Ht Hta. revert b E Nb Hb. induction a as [| [u v] a IH]; intros [| [u' v'] b] E Nb Hb;
        try (destruct Ha; fail); try discriminate.
      cbn [times map fst] in E, Na, Nb. injection E as <- E. inversion Na; inversion Nb; subst.
      cbn [combine In]. destruct Ha as [Ha | Ha], Hb as [Hb | Hb].
      * left. congruence.
      * injection Ha as -> ->. exfalso. match goal with H : ~ In t (map fst b) |- _ => apply H end.
        apply in_map_iff. exists (t, q). auto.
      * injection Hb as -> ->. exfalso. match goal with H : ~ In t (map fst a) |- _ => apply H end.
        apply in_map_iff. exists (t, p). auto.
      * right. apply IH; auto.
  - split.
    + intros H. apply in_map_iff in H. destruct H as (u & E1 & H). injection E1 as -> <- <-.
      rewrite zset_In, in_app_iff in H. split; [exact H |]. split; apply lookup_value_at; assumption.
    + intros (Ht & Ha & Hb). apply in_map_iff. exists t. rewrite zset_In, in_app_iff. split; [| exact Ht].
      rewrite (value_at_unique a t p (lookup a t) Na Ha (lookup_value_at _ _ Na)).
      rewrite (value_at_unique b t q (lookup b t) Nb Hb (lookup_value_at _ _ Nb)). reflexivity.
Qed.

Lemma align_map : forall f g a b, f NaN = NaN -> g NaN = NaN ->
  align (on_values f a) (on_values g b) = map (fun r => (fst r, (f (fst (snd r)), g (snd (snd r))))) (align a b).
Proof.
  intros f g a b Hf Hg.
  assert (forall h s, times (on_values h s) = times s) as T
    by (intros h s; unfold times, on_values; rewrite map_map; reflexivity).
  assert (forall h s t, h NaN = NaN -> lookup (on_values h s) t = h (lookup s t)) as L.
  { intros h s t Hh. unfold lookup. induction s as [| r s IH]; cbn [on_values map find fst]; [symmetry; exact Hh |].
    destruct (fst r =? t)%Z; [reflexivity | exact IH]. }
  unfold align. rewrite !T. destruct (same_index (times a) (times b)).
  - rewrite map_map. revert b. induction a as [| x a IH]; intros [| y b]; cbn [on_values map combine fst snd]; try reflexivity.
    f_equal. apply IH.
  - rewrite map_map. apply map_ext. intros t. cbn [fst snd]. rewrite !L by assumption. reflexivity.
Qed.

Lemma zip_times : forall f g a b, times (zip_aligned f a b) = times (zip_aligned g a b).
Proof. intros f g a b. unfold times, zip_aligned. rewrite !map_map. reflexivity. Qed.

Lemma align_same_times : forall a b, times a = times b -> map fst (align a b) = times a.
Proof.
  intros a b E. rewrite align_same by exact E. rewrite map_map. cbn [fst].
  unfold times in *. revert b E. induction a as [| x a IH]; intros [| y b] E; try discriminate; [reflexivity |].
  cbn [combine map fst] in *. injection E as _ E. f_equal. apply IH, E.
Qed.

Lemma align_sorted : forall a b, sorted_index a -> sorted_index b -> StronglySorted Z.lt (map fst (align a b)).
Proof.
  intros a b Ha Hb. destruct (same_index (times a) (times b)) eqn:E.
  - apply same_index_iff in E. rewrite align_same_times by exact E. exact Ha.
  - unfold align. rewrite E, map_map. cbn [fst]. rewrite map_id. apply zset_sorted.
Qed.

Lemma zip_values : forall f a b t x, NoDup (times a) -> NoDup (times b) ->
  (In (t, x) (zip_aligned f a b) <->
   (In t (times a) \/ In t (times b)) /\ exists p q, value_at a t p /\ value_at b t q /\ x = f p q).
Proof.
  intros f a b t x Na Nb. unfold zip_aligned. rewrite in_map_iff. split.
  - intros ([u [p q]] & E & H). cbn [fst snd] in E. assert (u = t) as -> by congruence.
    assert (x = f p q) as -> by congruence. apply align_values in H; auto. destruct H as (H1 & H2 & H3). eauto 8.
  - intros (H1 & p & q & H2 & H3 & ->). exists (t, (p, q)). split; [reflexivity |]. apply align_values; auto.
Qed.

(** ** PVWatts *)

Lemma on_values_In : forall f s t v, In (t, v) (on_values f s) <-> exists w, In (t, w) s /\ v = f w.
Proof.
  intros f s t v. unfold on_values. rewrite in_map_iff. split.
  - intros ([u w] & E & H). cbn [fst snd] in E. injection E as -> <-. eauto.
  - intros (w & H & ->). exists (t, w). auto.
Qed.

Lemma on_values_times : forall f s, times (on_values f s) = times s.
Proof. intros f s. unfold times, on_values. rewrite map_map. reflexivity. Qed.

Lemma value_at_on_values : forall f s t v, f NaN = NaN ->
  (value_at (on_values f s) t v <-> (exists w, value_at s t w /\ v = f w)).
Proof.
  intros f s t v Hf. unfold value_at. rewrite on_values_times, on_values_In. split.
  - intros [(w & H & ->) | [-> H]]; [eauto |]. exists NaN. auto.
  - intros (w & [H | [-> H]] & ->); [eauto |]. right. auto.
Qed.

Lemma map_values_on : forall f s, map_values f s = on_values (fun x => match x with Fin q => Fin (f q) | e => e end) s.
Proof. intros f s. unfold map_values, on_values. apply map_ext. intros [t []]; reflexivity. Qed.

Lemma value_noinf : forall s t v, noinf (vals s) -> value_at s t v -> v = NaN \/ exists q, v = Fin q.
Proof.
  intros s t v HI [H | [-> _]]; [| auto]. destruct (HI v).
  - unfold vals. apply in_map_iff. exists (t, v). auto.
  - destruct v; eauto; congruence.
Qed.

Lemma pvwatts_with_temperature : forall poa temp rated ref tref gamma t x,
  NoDup (times poa) -> NoDup (times temp) -> noinf (vals poa) -> noinf (vals temp) -> ref <> 0 ->
  (In (t, x) (pvwatts_dc_power poa (Fin rated) (Some temp) (Fin ref) (Fin tref) (Some (Fin gamma))) <->
   (In t (times poa) \/ In t (times temp)) /\
   exists g c, value_at poa t g /\ value_at temp t c /\ x = pvwatts_value rated ref tref gamma g c).
Proof.
  intros poa temp rated ref tref gamma t x Np Nt Ip It Hr. cbn [pvwatts_dc_power].
  assert (qeq ref 0 = false) as Er by (apply qeq_false; exact Hr).
  rewrite zip_values by (rewrite on_values_times; assumption). rewrite !on_values_times.
  set (f := fun g => fdiv (fmul (Fin rated) g) (Fin ref)).
  set (h := fun c => fadd (Fin 1) (fmul (Fin gamma) (fsub c (Fin tref)))).
  assert (forall g c, (g = NaN \/ exists q, g = Fin q) -> (c = NaN \/ exists q, c = Fin q) ->
            fmul (f g) (h c) = pvwatts_value rated ref tref gamma g c) as K.
  { intros g c [-> | [qg ->]] [-> | [qc ->]]; unfold f, h; cbn [fmul fdiv fsub fneg fadd]; rewrite ?Er;
      cbn [fmul pvwatts_value]; try reflexivity; f_equal; unfold Qcminus; ring. }
  split.
  - intros (Ht & p & q & Hp & Hq & ->). split; [exact Ht |].
    apply value_at_on_values in Hp; [| reflexivity]. apply value_at_on_values in Hq; [| reflexivity].
    destruct Hp as (g & Hg & ->), Hq as (c & Hc & ->). exists g, c. split; [exact Hg |]. split; [exact Hc |].
    apply K; [eapply value_noinf, Hg | eapply value_noinf, Hc]; assumption.
  - intros (Ht & g & c & Hg & Hc & ->). split; [exact Ht |]. exists (f g), (h c).
    split; [apply value_at_on_values; [reflexivity | eauto] |].
    split; [apply value_at_on_values; [reflexivity | eauto] |].
    symmetry. apply K; [eapply value_noinf, Hg | eapply value_noinf, Hc]; assumption.
Qed.

Lemma pvwatts_plain : forall poa temp gamma rated ref tref, noinf (vals poa) -> ref <> 0 -> temp = None \/ gamma = None ->
  pvwatts_dc_power poa (Fin rated) temp (Fin ref) tref gamma = map_values (fun g => rated * g / ref) poa.
Proof.
  intros poa temp gamma rated ref tref HI Hr H. unfold pvwatts_dc_power.
  assert (on_values (fun g => fdiv (fmul (Fin rated) g) (Fin ref)) poa = map_values (fun g => rated * g / ref) poa) as E.
  { unfold on_values, map_values. apply map_ext_in. intros [t v] Hin. cbn [fst snd]. f_equal.
    destruct (HI v) as [N1 N2]; [unfold vals; apply in_map_iff; exists (t, v); auto |].
    destruct v as [| | q |]; try congruence; [reflexivity |]. cbn [fmul fdiv].
    assert (qeq ref 0 = false) as -> by (apply qeq_false; exact Hr). reflexivity. }
  destruct H as [-> | ->]; [exact E |]. destruct temp; exact E.
Qed.

Lemma pvwatts_scale : forall c rated poa temp ref tref gamma, noinf (vals poa) ->
  (forall T, temp = Some T -> noinf (vals T)) -> ref <> 0 ->
  let out := pvwatts_dc_power poa (Fin rated) temp (Fin ref) (Fin tref) (option_map Fin gamma) in
  pvwatts_dc_power (map_values (fun g => c * g) poa) (Fin rated) temp (Fin ref) (Fin tref) (option_map Fin gamma) =
    map_values (fun p => c * p) out /\
  pvwatts_dc_power poa (Fin (c * rated)) temp (Fin ref) (Fin tref) (option_map Fin gamma) =
    map_values (fun p => c * p) out.
Proof.
  intros c rated poa temp ref tref gamma HI HT Hr out. unfold out. clear out. unfold pvwatts_dc_power.
  assert (qeq ref 0 = false) as Er by (apply qeq_false; exact Hr).
  set (sc := fun x => match x with Fin q => Fin (c * q) | e => e end).
  assert (forall s, map_values (fun g => c * g) s = on_values sc s) as MV by (intros s; apply map_values_on).
  set (f := fun g => fdiv (fmul (Fin rated) g) (Fin ref)).
  assert (on_values f (on_values sc poa) = on_values sc (on_values f poa)) as E1.
  { unfold on_values. rewrite !map_map. apply map_ext_in. intros [t v] Hin. cbn [fst snd]. f_equal.
    destruct (HI v) as [N1 N2]; [unfold vals; apply in_map_iff; exists (t, v); auto |].
    destruct v as [| | q |]; try congruence; [reflexivity |]. unfold f, sc. cbn [fmul fdiv]. rewrite Er.
    f_equal. unfold Qcdiv. ring. }
  assert (on_values (fun g => fdiv (fmul (Fin (c * rated)) g) (Fin ref)) poa = on_values sc (on_values f poa)) as E2.
  { unfold on_values. rewrite !map_map. apply map_ext_in. intros [t v] Hin. cbn [fst snd]. f_equal.
    destruct (HI v) as [N1 N2]; [unfold vals; apply in_map_iff; exists (t, v); auto |].
    destruct v as [| | q |]; try congruence; [reflexivity |]. unfold f, sc. cbn [fmul fdiv]. rewrite Er.
    f_equal. unfold Qcdiv. ring. }
  rewrite !MV. rewrite E1, E2. destruct temp as [T |]; [| auto]. destruct gamma as [gm |]; [| auto].
  cbn [option_map].
  set (tf := on_values (fun t => fadd (Fin 1) (fmul (Fin gm) (fsub t (Fin tref)))) T).
  assert (zip_aligned fmul (on_values sc (on_values f poa)) tf = on_values sc (zip_aligned fmul (on_values f poa) tf)) as K.
  { unfold zip_aligned. assert (on_values (fun x => x) tf = tf) as Eid
      by (unfold on_values; rewrite <- (map_id tf) at 2; apply map_ext; intros []; reflexivity).
    rewrite <- Eid at 1. rewrite (align_map sc (fun x => x)) by reflexivity.
    unfold on_values at 2. rewrite !map_map. apply map_ext_in. intros [t [p q]] Hin. cbn [fst snd]. f_equal.
    assert (p = NaN \/ exists a, p = Fin a) as Hp.
    { assert (In p (NaN :: vals (on_values f poa))) as Hin'.
      { unfold align in Hin. destruct (same_index _ _).
        - apply in_map_iff in Hin. destruct Hin as ([[u1 v1] [u2 v2]] & E & Hin). cbn [fst snd] in E.
          injection E as _ -> _. right. unfold vals. apply in_map_iff. exists (u1, p). split; [reflexivity |].
          eapply in_combine_l, Hin.
        - apply in_map_iff in Hin. destruct Hin as (u & E & _). injection E as _ <- _.
          destruct (lookup_cases (on_values f poa) u) as [(v & Hv & ->) | [_ ->]]; [| left; reflexivity].
          right. unfold vals. apply in_map_iff. exists (u, v). auto. }
      destruct Hin' as [<- | Hin']; [auto |]. unfold vals, on_values in Hin'. rewrite map_map in Hin'.
      apply in_map_iff in Hin'. destruct Hin' as ([u v] & <- & Hv). cbn [fst snd].
      destruct (HI v) as [N1 N2]; [unfold vals; apply in_map_iff; exists (u, v); auto |].
      destruct v as [| | w |]; try congruence; [left; reflexivity |]. unfold f. cbn [fmul fdiv]. rewrite Er. eauto. }
    assert (q = NaN \/ exists a, q = Fin a) as Hq.
    { assert (In q (NaN :: vals tf)) as Hin'.
      { unfold align in Hin. destruct (same_index _ _).
        - apply in_map_iff in Hin. destruct Hin as ([[u1 v1] [u2 v2]] & E & Hin). cbn [fst snd] in E.
          injection E as _ _ ->. right. unfold vals. apply in_map_iff. exists (u2, q). split; [reflexivity |].
          eapply in_combine_r, Hin.
        - apply in_map_iff in Hin. destruct Hin as (u & E & _). injection E as _ _ <-.
          destruct (lookup_cases tf u) as [(v & Hv & ->) | [_ ->]]; [| left; reflexivity].
          right. unfold vals. apply in_map_iff. exists (u, v). auto. }
      destruct Hin' as [<- | Hin']; [auto |]. unfold vals, tf, on_values in Hin'. rewrite map_map in Hin'.
      apply in_map_iff in Hin'. destruct Hin' as ([u v] & <- & Hv). cbn [fst snd].
      destruct (HT T eq_refl v) as [N1 N2]; [unfold vals; apply in_map_iff; exists (u, v); auto |].
      destruct v as [| | w |]; try congruence; [left; reflexivity |]. cbn [fmul fsub fneg fadd]. eauto. }
    destruct Hp as [-> | [a ->]], Hq as [-> | [b ->]]; unfold sc; cbn [fmul]; try reflexivity. f_equal. ring. }
  rewrite K. auto.
Qed.
