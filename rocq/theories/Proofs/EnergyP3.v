(** Instantaneous power: trapezoids. *)

From Coq Require Import QArith Qcanon List ZArith Bool Permutation Sorted Lia Arith.
From Verif.Base Require Import QcExtra ISort Quantile Fl TimeSeries Segments.
From Verif.Spec Require Import Stats Interp Energy.
From Verif.Model Require Import Interpolation Energy.
From Verif.Proofs Require Import StatsP FlP YoYP YoYP2 InterpP EnergyP EnergyP2.
Import ListNotations.
Open Scope Qc_scope.

Lemma consec_snoc : forall A (l : list A) a b, consec (l ++ [a; b]) = consec (l ++ [a]) ++ [(a, b)].
Proof.
  intros A l a b. induction l as [| x l IH]; [reflexivity |]. destruct l as [| y l]; [reflexivity |].
  cbn [app] in *. rewrite !consec_cons, IH. reflexivity.
Qed.

Lemma chord_end : forall a p b q, (a < b)%Z -> on_chord a p b q b = q.
Proof.
  intros a p b q H. unfold on_chord. assert (qz (b - a) <> 0) as N by (apply qz_neq0; lia). field. exact N.
Qed.
Lemma chord_start : forall a p b q, (a < b)%Z -> on_chord a p b q a = p.
Proof.
  intros a p b q H. unfold on_chord. rewrite Z.sub_diag, qz_0. assert (qz (b - a) <> 0) as N by (apply qz_neq0; lia). field. exact N.
Qed.
Lemma chord_flat : forall a p b t, on_chord a p b p t = p.
Proof. intros a p b t. unfold on_chord. ring. Qed.

Definition trap_area (pr : (Z * Qc) * (Z * Qc)) (t : Z) : Qc :=
  snd (fst pr) * hours t +
  (snd (snd pr) - snd (fst pr)) / qz (fst (snd pr) - fst (fst pr)) *
    (qz (t - fst (fst pr)) * qz (t - fst (fst pr))) / (qz 2 * qz 3600000000000).

Lemma trap_area_sub : forall a p b q u v, (a < b)%Z ->
  trap_area ((a, p), (b, q)) v - trap_area ((a, p), (b, q)) u =
  (on_chord a p b q v + on_chord a p b q u) / qz 2 * hours (v - u).
Proof.
  intros a p b q u v H. unfold trap_area, on_chord, hours. cbn [fst snd]. rewrite !qz_sub.
  assert (qz b - qz a <> 0) as N by (rewrite <- qz_sub; apply qz_neq0; lia).
  assert (qz 2 = 1 + 1) as -> by (apply Qc_is_canon; reflexivity). field.
  repeat split; try exact N; discriminate.
Qed.

Section Trap.
  Variable s : series.
  Variable width : Z.
  Variable limit : Qc.
  Variable t0 : Z.
  Variable v0 : fl.
  Variable rest : series.
  Hypothesis Hs : s = (t0, v0) :: rest.
  Hypothesis HS : sorted_index s.
  Hypothesis HI : noinf (vals s).
  Hypothesis HW : (0 < width)%Z.
  Variable P' : list (Z * Qc).
  Variable tn : Z.
  Variable qn : Qc.
  Hypothesis HP : points s = P' ++ [(tn, qn)].

  Let last := fst (List.last s (t0, NaN)).
  Let labels := bin_labels t0 width last.
  Let union := zset (times s ++ labels).
  Let stop := (t0 + width * cdiv (last - t0) width)%Z.
  Let Q := held s stop.

  Lemma pts_sorted : StronglySorted Z.lt (map fst (points s)).
  Proof. apply points_sorted, HS. Qed.

  Lemma held_eq : Q = points s ++ (if (tn <? stop)%Z then [(stop, qn)] else []).
  Proof. unfold Q, held. rewrite HP, rev_app_distr. reflexivity. Qed.

  Lemma last_time_eq : last_time s = tn.
  Proof. unfold last_time. rewrite HP, rev_app_distr. reflexivity. Qed.

  Lemma pts_le_tn : forall p, In p (points s) -> (fst p <= tn)%Z.
  Proof.
    intros p Hp. pose proof pts_sorted as SS. rewrite HP in Hp, SS. apply in_app_or in Hp. destruct Hp as [Hp | [<- | []]]; [| cbn; lia].
    rewrite map_app in SS. cbn [map fst] in SS. clear - Hp SS. induction P' as [| x l IH]; [destruct Hp |].
    cbn [map app] in SS. apply StronglySorted_inv in SS. destruct SS as [SS F]. destruct Hp as [<- | Hp]; [| auto].
    rewrite Forall_forall in F. assert (fst x < tn)%Z by (apply F, in_or_app; right; left; reflexivity). lia.
  Qed.

  Lemma tn_le_stop : (tn <= stop)%Z.
  Proof.
    assert (tn <= last)%Z.
    { apply (proj2 (last_row s t0 v0 rest Hs HS)). assert (In (tn, qn) (points s)) as K by (rewrite HP; apply in_or_app; right; left; reflexivity).
      apply points_In in K. apply in_map_iff. exists (tn, Fin qn). auto. }
    unfold stop, cdiv. pose proof (Z.div_mod (- (last - t0)) width ltac:(lia)).
    pose proof (Z.mod_pos_bound (- (last - t0)) width HW). nia.
  Qed.

  Lemma held_sorted : StronglySorted Z.lt (map fst Q).
  Proof.
    rewrite held_eq, map_app. pose proof pts_sorted as SS. destruct (tn <? stop)%Z eqn:E; [| rewrite app_nil_r; exact SS].
    apply Z.ltb_lt in E.
    assert (forall t, In t (map fst (points s)) -> (t < stop)%Z) as HL.
    { intros t Ht. apply in_map_iff in Ht. destruct Ht as (p & <- & Hp). apply pts_le_tn in Hp. lia. }
    clear - SS HL. cbn [map fst]. induction (map fst (points s)) as [| x l IH]; cbn [app].
    - repeat constructor.
    - apply StronglySorted_inv in SS. destruct SS as [SS F]. constructor.
      + apply IH; [exact SS |]. intros t Ht. apply HL. right. exact Ht.
      + apply Forall_app. split; [exact F |]. constructor; [| constructor]. apply HL. left. reflexivity.
  Qed.

  Lemma held_consec : forall pr, In pr (consec Q) ->
    (In pr (consec (points s)) /\ (fst (fst pr) < tn)%Z) \/ (pr = ((tn, qn), (stop, qn)) /\ (tn < stop)%Z).
  Proof.
    intros [a b] H. rewrite held_eq in H. 
    assert (In (a, b) (consec (points s)) -> (fst a < tn)%Z) as LT.
    { intros K. pose proof (sorted_consec _ _ _ pts_sorted K) as [K1 _]. destruct (consec_fst _ _ _ _ K) as [_ K2].
      apply pts_le_tn in K2. lia. }
    destruct (tn <? stop)%Z eqn:E; [| rewrite app_nil_r in H; left; split; [exact H | apply LT, H]].
    rewrite HP, <- app_assoc in H. cbn [app] in H. rewrite consec_snoc in H. apply in_app_or in H.
    rewrite <- HP in H. destruct H as [H | [H | []]]; [left; split; [exact H | apply LT, H] |].
    right. split; [symmetry; exact H | lia].
  Qed.

  Lemma consec_held : forall pr, In pr (consec (points s)) -> In pr (consec Q).
  Proof.
    intros [a b] H. apply consec_In in H. destruct H as (l1 & l2 & E). apply consec_In.
    rewrite held_eq, E. exists l1. eexists. rewrite <- app_assoc. reflexivity.
  Qed.

  Definition sel (pr : (Z * Qc) * (Z * Qc)) : bool := close limit pr || (last_time s <=? fst (fst pr))%Z.

  Lemma sel_inner : forall pr, (fst (fst pr) < tn)%Z -> sel pr = close limit pr.
  Proof. intros pr H. unfold sel. rewrite last_time_eq. assert (tn <=? fst (fst pr) = false)%Z as -> by lia. apply orb_false_r. Qed.

  Definition inst_value (t : Z) : fl :=
    match pair_at Q t with
    | Some pr => if sel pr then Fin (on_chord (fst (fst pr)) (snd (fst pr)) (fst (snd pr)) (snd (snd pr)) t) else NaN
    | None => NaN
    end.

  Let av := as_rows (points s).

  Lemma av_eq : available s = av.
  Proof. apply available_points, HI. Qed.

  Lemma av_In : forall t v, In (t, v) av <-> exists q, v = Fin q /\ In (t, q) (points s).
  Proof.
    intros t v. unfold av, as_rows. rewrite in_map_iff. split.
    - intros ([t' q] & E & H). cbn [fst snd] in E. exists q. split; [congruence |]. replace t with t' by congruence. exact H.
    - intros (q & -> & H). exists (t, q). auto.
  Qed.

  Lemma av_sorted : sorted_index av.
  Proof. rewrite <- av_eq. apply available_sorted, HS. Qed.

  Lemma lookup_pts : forall t q, In (t, q) (points s) -> lookup av t = Fin q.
  Proof. intros t q H. apply lookup_In; [exact av_sorted |]. apply av_In. eauto. Qed.

  Lemma lookup_no : forall t, (forall q, ~ In (t, q) (points s)) -> lookup av t = NaN.
  Proof.
    intros t H. apply lookup_none. intros K. apply in_map_iff in K. destruct K as ([t' v] & <- & K).
    apply av_In in K. destruct K as (q & _ & K). apply (H q K).
  Qed.

  Definition raw_value (t : Z) : fl := if isnan (lookup av t) then interp_at av t else lookup av t.

  Lemma raw_inside : forall t a b, pair_at (points s) t = Some (a, b) ->
    raw_value t = Fin (on_chord (fst a) (snd a) (fst b) (snd b) t).
  Proof.
    intros t [a p] [b q] E. pose proof (pair_at_Some _ _ _ E) as [E1 E2]. cbn [fst snd] in *.
    pose proof (sorted_consec _ _ _ pts_sorted E1) as [Hab HC]. cbn [fst snd] in *.
    destruct (consec_fst _ _ _ _ E1) as [Ha Hb]. unfold raw_value.
    destruct (Z.eq_dec t b) as [-> | Hne].
    - rewrite (lookup_pts b q Hb). cbn [isnan]. rewrite chord_end by exact Hab. reflexivity.
    - rewrite lookup_no.
      2:{ intros r Hr. specialize (HC _ Hr). cbn [fst] in HC. lia. }
      cbn [isnan]. unfold interp_at.
      pose proof (row_before av t av_sorted) as RB. pose proof (row_after av t av_sorted) as RA.
      assert (In (a, Fin p) av) as Aa by (apply av_In; eauto). assert (In (b, Fin q) av) as Ab by (apply av_In; eauto).
      destruct (last_such _ av) as [[t1 v1] |]; [| specialize (RB _ _ Aa); lia].
      destruct (find _ av) as [[t2 v2] |]; [| specialize (RA _ _ Ab); lia].
      destruct RB as (B1 & B2 & B3), RA as (A1 & A2 & A3).
      assert (t1 = a) as ->.
      { specialize (B3 _ _ Aa ltac:(lia)). apply av_In in B1. destruct B1 as (q1 & _ & B1). specialize (HC _ B1). cbn [fst] in HC. lia. }
      assert (t2 = b) as ->.
      { specialize (A3 _ _ Ab ltac:(lia)). apply av_In in A1. destruct A1 as (q1 & _ & A1). specialize (HC _ A1). cbn [fst] in HC. lia. }
      rewrite (sorted_fun av _ _ _ av_sorted B1 Aa), (sorted_fun av _ _ _ av_sorted A1 Ab). apply lin_chord, Hab.
  Qed.

  Lemma raw_after : forall t, (tn < t)%Z -> raw_value t = Fin qn.
  Proof.
    intros t Ht. unfold raw_value. rewrite lookup_no.
    2:{ intros r Hr. apply pts_le_tn in Hr. cbn in Hr. lia. }
    cbn [isnan]. unfold interp_at.
    pose proof (row_before av t av_sorted) as RB. pose proof (row_after av t av_sorted) as RA.
    assert (In (tn, Fin qn) av) as An.
    { apply av_In. exists qn. split; [reflexivity |]. rewrite HP. apply in_or_app. right. left. reflexivity. }
    destruct (last_such _ av) as [[t1 v1] |]; [| specialize (RB _ _ An); lia].
    destruct RB as (B1 & B2 & B3). specialize (B3 _ _ An ltac:(lia)).
    assert (t1 = tn) as ->.
    { apply av_In in B1. destruct B1 as (q1 & _ & B1). apply pts_le_tn in B1. cbn in B1. lia. }
    rewrite (sorted_fun av _ _ _ av_sorted B1 An).
    destruct (find _ av) as [[t2 v2] |]; [| reflexivity]. exfalso. destruct RA as (A1 & A2 & _).
    apply av_In in A1. destruct A1 as (q1 & _ & A1). apply pts_le_tn in A1. cbn in A1. lia.
  Qed.

  (** The value used at a cut: the chord, unless the step is too long or has not begun. *)
  Lemma inst_masked : forall t, In t union -> (t0 < t)%Z ->
    (if gap_mask (available s) union limit t then NaN else raw_value t) = inst_value t.
  Proof.
    intros t Hu Ht.
    assert (points s <> []) as Hne by (rewrite HP; destruct P'; discriminate).
    pose proof (gap_mask_spec s width limit t0 v0 rest Hs HS HI HW t Ht Hne) as GM. fold last labels union in GM. rewrite GM.
    unfold inst_value.
    destruct (pair_at (points s) t) as [[a b] |] eqn:E.
    - pose proof (pair_at_Some _ _ _ E) as [E1 E2]. cbn [fst snd] in E2.
      rewrite (pair_at_unique Q t a b held_sorted (consec_held _ E1) E2).
      destruct (held_consec _ (consec_held _ E1)) as [[_ L] | [EQ L]].
      + rewrite sel_inner by exact L. rewrite (raw_inside t a b E). cbn [fst snd]. destruct (close limit (a, b)); reflexivity.
      + exfalso. destruct (consec_fst _ _ _ _ E1) as [_ Hb]. apply pts_le_tn in Hb. replace b with (stop, qn) in Hb by congruence.
        cbn in Hb. lia.
    - destruct (pair_at_None _ _ pts_sorted E) as [K | K].
      + assert (match points s with p :: _ => (t <=? fst p)%Z | [] => false end = true) as ->.
        { destruct (points s) as [| x l] eqn:EP; [destruct P'; discriminate |]. specialize (K x (or_introl eq_refl)). lia. }
        destruct (pair_at Q t) as [[a b] |] eqn:EQ; [| reflexivity]. exfalso.
        apply pair_at_Some in EQ. destruct EQ as [E1 E2]. cbn [fst snd] in E2.
        destruct (held_consec _ E1) as [[H _] | [H L]].
        * destruct (consec_fst _ _ _ _ H) as [Ha _]. specialize (K _ Ha). lia.
        * replace a with (tn, qn) in E2 by congruence. cbn [fst] in E2.
          assert (In (tn, qn) (points s)) as Hn by (rewrite HP; apply in_or_app; right; left; reflexivity).
          specialize (K _ Hn). cbn in K. lia.
      + assert (In (tn, qn) (points s)) as Hn by (rewrite HP; apply in_or_app; right; left; reflexivity).
        pose proof (K _ Hn) as Kn. cbn [fst] in Kn.
        assert (match points s with p :: _ => (t <=? fst p)%Z | [] => false end = false) as ->.
        { destruct (points s) as [| x l] eqn:EP; [reflexivity |]. specialize (K x (or_introl eq_refl)). lia. }
        assert (t <= stop)%Z as Hst.
        { apply (union_In s width t0) in Hu. destruct Hu as [Hu | Hu].
          - assert (t <= last)%Z by (apply (proj2 (last_row s t0 v0 rest Hs HS)), Hu).
            unfold stop, cdiv. pose proof (Z.div_mod (- (last - t0)) width ltac:(lia)).
            pose proof (Z.mod_pos_bound (- (last - t0)) width HW). nia.
          - apply (labels_In s width t0 v0 rest Hs HS HW) in Hu. destruct Hu as (k & Hk & ->). unfold stop. fold last in Hk. nia. }
        rewrite raw_after by exact Kn.
        assert (In ((tn, qn), (stop, qn)) (consec Q)) as HQ.
        { rewrite held_eq. assert (tn <? stop = true)%Z as -> by lia. rewrite HP, <- app_assoc. cbn [app]. rewrite consec_snoc.
          apply in_or_app. right. left. reflexivity. }
        rewrite (pair_at_unique Q t _ _ held_sorted HQ) by (cbn [fst]; lia).
        cbn [fst snd]. unfold sel. rewrite last_time_eq. cbn [fst]. rewrite Z.leb_refl, orb_true_r, chord_flat. reflexivity.
  Qed.

  (** The value at the first row. *)
  Lemma inst_first : (if gap_mask (available s) union limit t0 then NaN else raw_value t0) = v0.
  Proof.
    destruct (union_cons s width t0 v0 rest Hs HS HW) as [l El]. fold last labels union in El.
    rewrite av_eq. unfold gap_mask. rewrite El. unfold gap_sizes. unfold av at 1 2. rewrite as_rows_times, gap_bfill by exact pts_sorted.
    assert (pair_at (points s) t0 = None) as ->.
    { destruct (pair_at (points s) t0) as [[a b] |] eqn:E; [| reflexivity]. exfalso.
      apply pair_at_Some in E. destruct E as [E1 E2]. destruct (consec_fst _ _ _ _ E1) as [Ha _]. destruct a as [a p]. cbn [fst snd] in *.
      apply points_In in Ha. pose proof (first_le s t0 v0 rest Hs HS _ _ Ha). lia. }
    cbn [fgt flt orb]. 
    assert (forall a q, In (a, q) (points s) -> (t0 <= a)%Z) as HG.
    { intros a q H. apply points_In in H. exact (first_le s t0 v0 rest Hs HS _ _ H). }
    assert (v0 = NaN \/ exists q, v0 = Fin q) as [Ev | [q0 Ev]].
    { destruct (HI v0) as [N1 N2]; [rewrite Hs; left; reflexivity |]. destruct v0; eauto; congruence. }
    - assert (forall a q, In (a, q) (points s) -> (t0 < a)%Z) as HG'.
      { intros a q H. pose proof (HG a q H). destruct (Z.eq_dec a t0) as [-> | N]; [exfalso | lia]. apply points_In in H.
        assert (In (t0, v0) s) as K by (rewrite Hs; left; reflexivity). pose proof (sorted_fun s _ _ _ HS H K). congruence. }
      assert (exists a q k, points s = (a, q) :: k) as (a & q & k & EP).
      { rewrite HP. destruct P' as [| [a q] k]; [exists tn, qn, []; reflexivity | eexists; eexists; eexists; reflexivity]. }
      replace av with (as_rows ((a, q) :: k)) by (unfold av; rewrite EP; reflexivity). cbn [as_rows map fst].
      specialize (HG' a q ltac:(rewrite EP; left; reflexivity)). assert (a =? t0 = false)%Z as -> by lia. assert (t0 <=? a = true)%Z as -> by lia.
      symmetry. exact Ev.
    - assert (In (t0, q0) (points s)) as K by (apply points_In; rewrite Hs, Ev; left; reflexivity).
      unfold raw_value. rewrite (lookup_pts _ _ K). cbn [isnan].
      assert (points s = (t0, q0) :: points rest) as EP by (rewrite Hs, Ev; reflexivity).
      replace av with (as_rows ((t0, q0) :: points rest)) by (unfold av; rewrite EP; reflexivity).
      cbn [as_rows map fst]. rewrite Z.eqb_refl. symmetry. exact Ev.
  Qed.

  (** ** Cuts *)

  Lemma next_cut_spec : forall a, (t0 <= a < stop)%Z ->
    In (next_cut s t0 width a) union /\ (a < next_cut s t0 width a)%Z /\
    forall t, In t union -> (a < t)%Z -> (next_cut s t0 width a <= t)%Z.
  Proof.
    intros a Ha. unfold next_cut.
    pose proof (Z.div_mod (a - t0) width ltac:(lia)) as D. pose proof (Z.mod_pos_bound (a - t0) width HW) as M.
    set (d := ((a - t0) / width)%Z) in *. set (lab := (t0 + width * (d + 1))%Z).
    assert (0 <= d)%Z by (apply Z.div_pos; lia).
    assert (d + 1 <= cdiv (last - t0) width)%Z as Hd by (unfold stop in Ha; nia).
    assert (In lab union) as HL.
    { apply (union_In s width t0). right. apply (labels_In s width t0 v0 rest Hs HS HW). exists (d + 1)%Z. fold last. split; [lia | reflexivity]. }
    assert (forall t, In t labels -> (a < t)%Z -> (lab <= t)%Z) as HL2.
    { intros t Ht Hat. apply (labels_In s width t0 v0 rest Hs HS HW) in Ht. destruct Ht as (k & Hk & ->). unfold lab.
      assert (d < k)%Z by nia. nia. }
    assert (a < lab)%Z as HL3 by (unfold lab; nia).
    pose proof (row_after s a HS) as RA. destruct (find _ s) as [[t2 v2] |].
    - destruct RA as (A1 & A2 & A3). cbn [fst]. split; [| split; [lia |]].
      + destruct (Z.min_spec t2 lab) as [[_ ->] | [_ ->]]; [| exact HL]. apply (union_In s width t0). left.
        apply in_map_iff. exists (t2, v2). auto.
      + intros t Ht Hat. apply (union_In s width t0) in Ht. destruct Ht as [Ht | Ht].
        * apply in_map_iff in Ht. destruct Ht as ([t' w] & <- & Ht). specialize (A3 _ _ Ht Hat). cbn [fst]. lia.
        * specialize (HL2 _ Ht Hat). lia.
    - split; [exact HL |]. split; [exact HL3 |]. intros t Ht Hat. apply (union_In s width t0) in Ht. destruct Ht as [Ht | Ht].
      + apply in_map_iff in Ht. destruct Ht as ([t' w] & <- & Ht). specialize (RA _ _ Ht). cbn [fst] in Hat. lia.
      + apply HL2; assumption.
  Qed.

  Definition trap_piece (pr : (Z * Qc) * (Z * Qc)) : piece :=
    (trap_from s limit t0 width pr, fst (snd pr), trap_area pr).

  Definition cut_value (t : Z) : fl := if (t =? t0)%Z then v0 else inst_value t.

  (** A row's own value is usable exactly when [trusted]. *)
  Lemma trusted_spec : forall a p, In (a, p) (points s) ->
    cut_value a = if trusted s limit a then Fin p else NaN.
  Proof.
    intros a p H. unfold cut_value, trusted.
    assert (forall q, v0 = Fin q -> (t0 = a) -> q = p) as V.
    { intros q -> ->. apply points_In in H. assert (In (a, Fin q) s) as K by (rewrite Hs; left; reflexivity).
      pose proof (sorted_fun s _ _ _ HS H K) as E. congruence. }
    destruct (a =? t0)%Z eqn:E.
    - apply Z.eqb_eq in E. subst a. apply points_In in H. assert (In (t0, v0) s) as K by (rewrite Hs; left; reflexivity).
      pose proof (sorted_fun s _ _ _ HS H K) as E. rewrite Hs, <- E, Z.eqb_refl. reflexivity.
    - apply Z.eqb_neq in E.
      assert (match s with (t1, Fin _) :: _ => (t1 =? a)%Z | _ => false end = false) as ->.
      { rewrite Hs. destruct v0; try reflexivity. apply Z.eqb_neq. congruence. }
      cbn [orb].
      assert (existsb (fun pr => (fst (snd pr) =? a)%Z) (steps_used s limit) =
              match pair_at (points s) a with Some pr => close limit pr | None => false end) as ->.
      { destruct (existsb _ _) eqn:X.
        - apply existsb_exists in X. destruct X as ([x y] & X1 & X2). apply filter_In in X1. destruct X1 as [X1 C].
          apply Z.eqb_eq in X2. cbn [snd] in X2.
          pose proof (sorted_consec _ _ _ pts_sorted X1) as [L _].
          rewrite (pair_at_unique (points s) a x y pts_sorted X1) by lia. symmetry. exact C.
        - destruct (pair_at (points s) a) as [[x y] |] eqn:E1; [| reflexivity].
          pose proof (pair_at_Some _ _ _ E1) as [E2 E3]. cbn [fst snd] in E3.
          destruct (close limit (x, y)) eqn:C; [| reflexivity]. exfalso.
          assert (existsb (fun pr => (fst (snd pr) =? a)%Z) (steps_used s limit) = true); [| congruence].
          apply existsb_exists. exists (x, y). split; [apply filter_In; auto |]. cbn [snd]. apply Z.eqb_eq.
          pose proof (sorted_consec _ _ _ pts_sorted E2) as [_ HC]. specialize (HC _ H). cbn [fst] in HC. lia. }
      unfold inst_value. destruct (pair_at (points s) a) as [[x y] |] eqn:E1.
      + pose proof (pair_at_Some _ _ _ E1) as [E2 E3]. cbn [fst snd] in E3.
        rewrite (pair_at_unique Q a x y held_sorted (consec_held _ E2) E3).
        pose proof (sorted_consec _ _ _ pts_sorted E2) as [HL HC]. specialize (HC _ H). cbn [fst] in HC.
        rewrite sel_inner.
        2:{ cbn [fst]. apply pts_le_tn in H. cbn in H. lia. }
        destruct (close limit (x, y)); [| reflexivity]. cbn [fst snd]. f_equal.
        assert (fst y = a) as <- by lia. rewrite chord_end by exact HL.
        destruct (consec_fst _ _ _ _ E2) as [_ Hy]. destruct y as [ty qy]. cbn [fst snd] in *.
        apply points_In in Hy. apply points_In in H. pose proof (sorted_fun s _ _ _ HS H Hy) as K. congruence.
      + destruct (pair_at Q a) as [[x y] |] eqn:E2; [| reflexivity]. exfalso.
        apply pair_at_Some in E2. destruct E2 as [E2 E3]. cbn [fst snd] in E3.
        pose proof (pts_le_tn _ H) as Hle. cbn [fst] in Hle.
        destruct (held_consec _ E2) as [[K _] | [K L]].
        * rewrite (pair_at_unique (points s) a x y pts_sorted K E3) in E1. discriminate.
        * replace x with (tn, qn) in E3 by congruence. cbn in E3. lia.
  Qed.

  Lemma held_fst : forall a b, In (a, b) (consec Q) -> In a (points s) /\ (t0 <= fst a < stop)%Z.
  Proof.
    intros a b H. pose proof (sorted_consec _ _ _ held_sorted H) as [L _].
    assert (In a (points s)) as Ha.
    { destruct (held_consec _ H) as [[K _] | [K _]]; [apply (consec_fst _ _ _ _ K) |].
      replace a with (tn, qn) by congruence. rewrite HP. apply in_or_app. right. left. reflexivity. }
    split; [exact Ha |].
    assert (fst b <= stop)%Z.
    { destruct (held_consec _ H) as [[K _] | [K _]].
      - destruct (consec_fst _ _ _ _ K) as [_ Hb]. apply pts_le_tn in Hb. pose proof tn_le_stop. lia.
      - replace b with (stop, qn) by congruence. cbn. lia. }
    destruct a as [a p]. cbn [fst] in *. apply points_In in Ha. pose proof (first_le s t0 v0 rest Hs HS _ _ Ha). lia.
  Qed.

  Lemma held_union : forall a b, In (a, b) (consec Q) -> In (fst a) union /\ In (fst b) union.
  Proof.
    intros a b H. pose proof (held_fst _ _ H) as [Ha _]. split; [apply (points_union s width t0), Ha |].
    destruct (held_consec _ H) as [[K _] | [K _]].
    - destruct (consec_fst _ _ _ _ K) as [_ Hb]. apply (points_union s width t0), Hb.
    - replace b with (stop, qn) by congruence. cbn [fst]. apply (union_In s width t0). right.
      apply (labels_In s width t0 v0 rest Hs HS HW). exists (cdiv (last - t0) width). fold last. split; [| reflexivity].
      pose proof (last_ge s t0 v0 rest Hs HS) as LG. fold last in LG. unfold cdiv.
      assert ((- (last - t0)) / width <= 0)%Z; [| lia]. apply Z.div_le_upper_bound; lia.
  Qed.

  Lemma trap_from_ge : forall pr, In pr (consec Q) -> (fst (fst pr) <= trap_from s limit t0 width pr)%Z.
  Proof.
    intros [a b] H. unfold trap_from. cbn [fst]. destruct (trusted s limit (fst a)); [lia |].
    destruct (held_fst _ _ H) as [_ K]. destruct (next_cut_spec (fst a) K) as (_ & K2 & _). lia.
  Qed.

  Lemma consec_step : forall u v, In (u, v) (consec union) ->
    In u union /\ In v union /\ (u < v)%Z /\ forall t, In t union -> (t <= u \/ v <= t)%Z.
  Proof.
    intros u v H. destruct (consec_fst _ _ _ _ H) as [Hu Hv]. split; [exact Hu |]. split; [exact Hv |].
    apply consec_In in H. destruct H as (l1 & l2 & E). pose proof (union_sorted s width t0) as SS. fold last labels union in SS.
    rewrite E in SS |- *. clear - SS. induction l1 as [| x l1 IH]; cbn [app] in *; apply StronglySorted_inv in SS; destruct SS as [SS F];
      rewrite Forall_forall in F.
    - split; [apply F; left; reflexivity |]. intros t [<- | [<- | Ht]]; [lia | lia |]. apply StronglySorted_inv in SS.
      destruct SS as [_ F']. rewrite Forall_forall in F'. specialize (F' _ Ht). lia.
    - destruct (IH SS) as [A B]. split; [exact A |]. intros t [<- | Ht]; [| apply B, Ht].
      assert (x < u)%Z by (apply F, in_or_app; right; left; reflexivity). lia.
  Qed.

  Lemma trap_step : forall u v, In (u, v) (consec union) ->
    step_energy Instantaneous (u, cut_value u) (v, cut_value v) =
    if existsb (in_piece v) (map trap_piece (trap_used s limit stop))
    then Fin (qsum (map (fun p => if in_piece v p then amount u v p else 0) (map trap_piece (trap_used s limit stop))))
    else NaN.
  Proof.
    intros u v Huv. unfold trap_used. fold Q. change (fun pr => close limit pr || (last_time s <=? fst (fst pr))%Z) with sel.
    destruct (pieces_at s width t0 Q sel trap_piece (trap_from s limit t0 width) trap_area v u held_sorted) as [E1 E2].
    { reflexivity. } { exact trap_from_ge. }
    rewrite E1, E2. destruct (consec_step u v Huv) as (Hu & Hv & Huv' & HC).
    pose proof (union_ge s width t0 v0 rest Hs HS HW u Hu) as Hu0.
    unfold step_energy. cbn [fst snd]. rewrite in_hours_spec.
    assert (cut_value v = inst_value v) as ->.
    { unfold cut_value. assert (v =? t0 = false)%Z as -> by lia. reflexivity. }
    unfold inst_value at 1. destruct (pair_at Q v) as [[a b] |] eqn:E; [| reflexivity].
    pose proof (pair_at_Some _ _ _ E) as [K1 K2]. cbn [fst snd] in K2.
    destruct (held_fst _ _ K1) as [Ha Ha']. destruct (held_union _ _ K1) as [Ua Ub].
    pose proof (sorted_consec _ _ _ held_sorted K1) as [Hab _].
    destruct (sel (a, b)) eqn:Es; [| reflexivity]. cbn [andb fst snd].
    assert (fst a <= u)%Z as Hau by (destruct (HC _ Ua); lia).
    assert (forall cu, cut_value u = Fin cu -> (trap_from s limit t0 width (a, b) < v)%Z -> on_chord (fst a) (snd a) (fst b) (snd b) u = cu ->
      fmul (fdiv (fadd (Fin (on_chord (fst a) (snd a) (fst b) (snd b) v)) (cut_value u)) (fz 2)) (Fin (hours (v - u))) =
      if (trap_from s limit t0 width (a, b) <? v)%Z then Fin (if (trap_from s limit t0 width (a, b) <? v)%Z then trap_area (a, b) v - trap_area (a, b) u else 0) else NaN) as FIN.
    { intros cu -> Hlt <-. assert (trap_from s limit t0 width (a, b) <? v = true)%Z as -> by lia.
      destruct a as [ta pa], b as [tb pb]. cbn [fst snd] in *. rewrite trap_area_sub by exact Hab.
      unfold fz. cbn [fadd fdiv]. assert (qeq (qz 2) 0 = false) as -> by reflexivity. reflexivity. }
    unfold trap_from in *. cbn [fst] in *. destruct (Z.eq_dec u (fst a)) as [-> | Hne].
    - destruct a as [ta pa]. cbn [fst snd] in *. pose proof (trusted_spec ta pa Ha) as T.
      destruct (trusted s limit ta).
      + apply (FIN pa T); [lia | apply chord_start, Hab].
      + rewrite T. destruct (next_cut_spec ta Ha') as (N1 & N2 & N3). specialize (N3 v Hv ltac:(lia)).
        assert (v <= next_cut s t0 width ta)%Z by (destruct (HC _ N1); lia).
        assert (next_cut s t0 width ta <? v = false)%Z as -> by lia. reflexivity.
    - assert (cut_value u = Fin (on_chord (fst a) (snd a) (fst b) (snd b) u)) as CU.
      { unfold cut_value. assert (u =? t0 = false)%Z as -> by lia. unfold inst_value.
        rewrite (pair_at_same Q v u a b held_sorted E) by lia. rewrite Es. reflexivity. }
      apply (FIN _ CU); [| reflexivity].
      destruct (trusted s limit (fst a)); [lia |]. destruct (next_cut_spec (fst a) Ha') as (N1 & N2 & N3).
      specialize (N3 u Hu ltac:(lia)). lia.
  Qed.

  Lemma aggregate_inst :
    aggregate s width limit Instantaneous =
    Ok (map (fun b => (b, if existsb (meets (b - width) b) (map trap_piece (trap_used s limit stop))
                          then Fin (qsum (map (clipped (b - width) b) (map trap_piece (trap_used s limit stop)))) else NaN))
            (tl labels)).
  Proof.
    rewrite (aggregate_unfold s width limit t0 v0 rest Hs).
    2:{ rewrite av_eq. unfold av. rewrite HP. destruct P'; discriminate. }
    2:{ discriminate. }
    fold last labels union.
    assert (available (reindex av union) = av) as EA.
    { rewrite available_reindex; [unfold av; rewrite <- available_points by exact HI; apply available_idem | exact av_sorted | apply union_sorted |].
      intros t v H _. apply av_In in H. destruct H as (q & _ & H). apply (points_union s width t0 (t, q)), H. }
    assert (forall f : Z * fl -> Z * fl, map f (filled Instantaneous (available s) union) =
      map (fun t => f (t, raw_value t)) union) as Efill.
    { intros f. unfold filled. rewrite av_eq. unfold interp_index. rewrite EA, map_map. unfold reindex. rewrite map_map. reflexivity. }
    rewrite Efill. cbn [fst snd].
    destruct (union_cons s width t0 v0 rest Hs HS HW) as [l El]. fold last labels union in El.
    set (w := fun t => if gap_mask (available s) union limit t then NaN else raw_value t).
    assert (forall t, In t union -> w t = cut_value t) as Ew.
    { intros t Ht. unfold cut_value. destruct (t =? t0)%Z eqn:E; [apply Z.eqb_eq in E; subst t; apply inst_first |].
      apply inst_masked; [exact Ht |]. pose proof (union_ge s width t0 v0 rest Hs HS HW t Ht). lia. }
    change (map _ union) with (map (fun t => (t, w t)) union).
    replace (map (fun t => (t, w t)) union) with ((t0, w t0) :: map (fun t => (t, w t)) l) by (rewrite El; reflexivity).
    cbn [fst]. rewrite step_energies_consec, <- El. rewrite (resample_bins s width t0 v0 rest Hs HS HW _ l El).
    cbn [tl]. f_equal.
    apply map_ext_in. intros b Hb. f_equal. destruct (label_bounds s width t0 v0 rest Hs HS HW b Hb) as [Hb1 Hb2].
    apply pieces_fsum1; [apply union_sorted | exact Hb2 | exact Hb1 | lia | |].
    - intros a c G Hp. apply in_map_iff in Hp. destruct Hp as ([x y] & E & Hp). apply filter_In in Hp.
      destruct Hp as [Hp _]. fold Q in Hp. destruct (held_union _ _ Hp) as [Hx Hy].
      replace a with (trap_from s limit t0 width (x, y)) by (exact (f_equal (fun p => fst (fst p)) E)).
      replace c with (fst y) by (exact (f_equal (fun p => snd (fst p)) E)).
      split; [| exact Hy]. unfold trap_from. cbn [fst]. destruct (trusted s limit (fst x)); [exact Hx |].
      destruct (held_fst _ _ Hp) as [_ K]. apply (next_cut_spec (fst x) K).
    - intros u v Huv. cbn [fst snd]. rewrite <- (trap_step u v Huv). destruct (consec_fst _ _ _ _ Huv) as [Hu Hv].
      rewrite (Ew u Hu), (Ew v Hv). reflexivity.
  Qed.
End Trap.
