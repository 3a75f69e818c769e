(** Start levels of the realisations. *)

From Coq Require Import QArith Qcanon List ZArith Bool Arith Lia Sorted String.
From Verif.Base Require Import QcExtra ISort Quantile Fl TimeSeries Calendar Rolling Segments.
From Verif.Spec Require Import Stats Filters Soiling.
From Verif.Model Require Import Soiling.
From Verif.Proofs Require Import StatsP FiltersP2 SoilP SoilP2 SoilP3 SoilP4 SoilP5.
Import ListNotations.
Open Scope list_scope.
Open Scope Qc_scope.

Lemma clip_unit_range : forall x, 0 <= clip_unit x /\ clip_unit x <= 1.
Proof. intros x. unfold clip_unit, qmax, qmin. destruct (qle 1 x) eqn:E1; destruct (qle 0 _) eqn:E2; qb; split; qlra. Qed.

Definition is_half (m : clean_method) : bool := match m with HalfNorm => true | RandomClean => false end.
Definition rec_value (x : fl) : Qc := match x with Fin q => q | _ => 1 end.

Lemma next_level_Fin : forall m z e r, r <> PInf -> r <> NInf -> next_level m z (Fin e) r = Ok (Fin (cleaned (is_half m) z e (rec_value r))).
Proof.
  intros m z e r N1 N2. unfold next_level, cleaned. destruct m; cbn [is_half uniform].
  - assert (fill1 r = Fin (rec_value r)) as -> by (destruct r; try contradiction; reflexivity). cbn [fadd]. rewrite clip01_Fin. unfold fz. cbn [fsub fneg fadd fdiv]. assert (qeq (qz 3) 0 = false) as -> by reflexivity.
    cbn [fmul fabs fneg fadd fsub]. f_equal. f_equal. change (qz 1) with 1. rewrite qabs_mul. destruct (clip_unit_range (e + rec_value r)) as [C0 C1].
    set (w := clip_unit (e + rec_value r)) in *. rewrite (qabs_pos ((1 + - w) / qz 3)); [reflexivity |]. apply Qc_div_nonneg; [qlra | reflexivity].
  - unfold fz. change (qz 1) with 1. reflexivity.
Qed.

Lemma cleaned_le1 : forall m z e r, (m = RandomClean -> 0 <= z /\ z <= 1) -> e <= 1 -> cleaned (is_half m) z e r <= 1.
Proof.
  intros [|] z e r HZ He; cbn [is_half cleaned].
  - destruct (clip_unit_range (e + r)) as [_ C]. set (w := clip_unit (e + r)) in *. assert (0 <= qabs z * ((1 - w) / qz 3)); [| qlra].
    apply Qc_mul_nonneg; [apply qabs_nonneg |]. apply Qc_div_nonneg; [qlra | reflexivity].
  - destruct (HZ eq_refl). unfold cleaned. assert (0 <= (1 - e) * (1 - z)) by (apply Qc_mul_nonneg; qlra). replace (e + (1 - e) * z) with (1 - (1 - e) * (1 - z)) by ring. qlra.
Qed.

Definition fin_pair (p : Qc * Qc) : fl * fl := (Fin (fst p), Fin (snd p)).

(** ** Valid intervals *)

Section Valid.
Variables (m : clean_method) (z : nat -> Qc).

Lemma valid_levels_spec : forall (l : list (interval * fl)) (ls : list Qc) k0 s0, List.length ls = List.length l -> (forall x, In x l -> snd x <> PInf /\ snd x <> NInf) ->
  let valid := map (fun x => i_valid (fst x)) l in
  exists lv : list (option (Qc * Qc)),
    valid_levels m z k0 (Fin s0) (map (fun p => (fst (fst p), snd (fst p), snd p)) (combine l (map Fin ls))) = Ok (map (option_map fin_pair) lv) /\
    List.length lv = List.length l /\
    (forall k, nth_error valid k = Some false -> nth_error lv k = Some None) /\
    (forall k, nth_error valid k = Some true -> exists s, nth_error lv k = Some (Some (s, s + nth k ls 0)) /\
       ((forall j, (j < k)%nat -> nth_error valid j = Some false) -> s = s0) /\
       (forall j s' e', prev_true valid k j -> nth_error lv j = Some (Some (s', e')) ->
          s = cleaned (is_half m) (z (k0 + count_true (firstn j valid))%nat) e' (rec_value (nth j (map snd l) NaN)))).
Proof.
  induction l as [| [i rec] l IH]; intros [| loss ls] k0 s0 L N valid; try discriminate.
  - exists []. repeat split; try reflexivity; intros k H; destruct k; discriminate.
  - cbn [map combine valid_levels fst snd]. assert (forall x, In x l -> snd x <> PInf /\ snd x <> NInf) as N' by (intros x Hx; apply N; right; exact Hx).
    destruct (N (i, rec) (or_introl eq_refl)) as [NR1 NR2]. cbn [snd] in NR1, NR2. assert (List.length ls = List.length l) as L' by (cbn in L; lia). unfold valid. cbn [map fst]. set (valid' := map (fun x => i_valid (fst x)) l) in *.
    destruct (i_valid i) eqn:V.
    + change (fadd (Fin s0) (Fin loss)) with (Fin (s0 + loss)). rewrite next_level_Fin by assumption. cbn [bind].
      set (s1 := cleaned _ _ _ _). destruct (IH ls (S k0) s1 L' N') as (lv & E & Ll & HF & HT). rewrite E. cbn [bind]. exists (Some (s0, s0 + loss) :: lv).
      split; [reflexivity |]. split; [cbn; lia |]. split.
      * intros k H. destruct k as [| k]; [discriminate |]. apply HF. exact H.
      * intros k H. destruct k as [| k].
        -- exists s0. split; [reflexivity |]. split; [reflexivity |]. intros j s' e' (C & _). lia.
        -- cbn [nth_error] in H. destruct (HT k H) as (s & E1 & E2 & E3). exists s. split; [exact E1 |]. split.
           ++ intros C. specialize (C 0%nat ltac:(lia)). discriminate.
           ++ intros j s' e' (P1 & P2 & P3) G. destruct j as [| j].
              ** injection G as <- <-. cbn [firstn count_true]. unfold count_true. cbn [filter List.length nth map snd]. rewrite Nat.add_0_r. apply E2.
                 intros j Hj. apply (P3 (S j)). lia.
              ** cbn [nth_error] in G. rewrite (E3 j s' e').
                 --- cbn [nth map]. change (firstn (S j) (true :: valid')) with (true :: firstn j valid'). unfold count_true. cbn [filter List.length]. rewrite Nat.add_succ_r. reflexivity.
                 --- split; [lia |]. split; [exact P2 |]. intros q Hq. apply (P3 (S q)). lia.
                 --- exact G.
    + destruct (IH ls k0 s0 L' N') as (lv & E & Ll & HF & HT). rewrite E. cbn [bind]. exists (None :: lv). split; [reflexivity |]. split; [cbn; lia |]. split.
      * intros k H. destruct k as [| k]; [reflexivity |]. apply HF. exact H.
      * intros k H. destruct k as [| k]; [discriminate |]. cbn [nth_error] in H. destruct (HT k H) as (s & E1 & E2 & E3). exists s. split; [exact E1 |]. split.
        -- intros C. apply E2. intros j Hj. apply (C (S j)). lia.
        -- intros j s' e' (P1 & P2 & P3) G. destruct j as [| j]; [discriminate |]. cbn [nth_error] in G. rewrite (E3 j s' e').
           ++ reflexivity.
           ++ split; [lia |]. split; [exact P2 |]. intros q Hq. apply (P3 (S q)). lia.
           ++ exact G.
Qed.

(** No level above one. *)
Lemma valid_levels_le1 : forall l k0 s0 lv, (m = RandomClean -> forall k, 0 <= z k /\ z k <= 1) -> s0 <= 1 ->
  (forall x, In x l -> (snd (fst x) <> PInf /\ snd (fst x) <> NInf) /\ exists q, snd x = Fin q /\ q <= 0) ->
  valid_levels m z k0 (Fin s0) l = Ok (map (option_map fin_pair) lv) -> forall s e, In (Some (s, e)) lv -> s <= 1 /\ e <= s.
Proof.
  induction l as [| [[i rec] loss] l IH]; intros k0 s0 lv HZ H0 HL E s e Hin.
  - destruct lv; [destruct Hin | discriminate].
  - cbn [valid_levels] in E. destruct (HL _ (or_introl eq_refl)) as [[NR1 NR2] (q & Eq & Hq)]. cbn [fst snd] in NR1, NR2, Eq.
    assert (forall x, In x l -> (snd (fst x) <> PInf /\ snd (fst x) <> NInf) /\ exists q, snd x = Fin q /\ q <= 0) as HL' by (intros x Hx; apply HL; right; exact Hx).
    destruct (i_valid i).
    + rewrite Eq in E. change (fadd (Fin s0) (Fin q)) with (Fin (s0 + q)) in E. rewrite next_level_Fin in E by assumption. cbn [bind] in E. set (s1 := cleaned _ _ _ _) in E.
      destruct (valid_levels m z (S k0) (Fin s1) l) as [rest |] eqn:ER; [| discriminate]. cbn [bind] in E. destruct lv as [| o lv]; [discriminate |]. cbn [map] in E. injection E as EO EREST.
      destruct Hin as [-> | Hin].
      * cbn in EO. unfold fin_pair in EO. cbn in EO. injection EO as <- <-. split; [exact H0 | qlra].
      * apply (IH (S k0) s1 lv HZ); [| exact HL' | rewrite ER, EREST; reflexivity | exact Hin]. unfold s1. apply cleaned_le1; [intros M; apply HZ; exact M | qlra].
    + destruct (valid_levels m z k0 (Fin s0) l) as [rest |] eqn:ER; [| discriminate]. cbn [bind] in E. destruct lv as [| o lv]; [discriminate |]. cbn [map] in E. injection E as EO EREST.
      destruct Hin as [-> | Hin]; [discriminate |]. apply (IH k0 s0 lv HZ H0 HL'); [rewrite ER, EREST; reflexivity | exact Hin].
Qed.
End Valid.

(** ** Neighbours *)

Definition fin_opt (lv : list (option (Qc * Qc))) : list (option (fl * fl)) := map (option_map fin_pair) lv.

Lemma previous_spec : forall lv acc k, (k < List.length lv)%nat -> exists p, nth_error (previous_ends (Fin acc) (fin_opt lv)) k = Some (Fin p) /\
  ((exists j s, (j <= k)%nat /\ nth_error lv j = Some (Some (s, p)) /\ forall q, (j < q <= k)%nat -> nth_error lv q = Some None) \/
   (p = acc /\ forall q, (q <= k)%nat -> nth_error lv q = Some None)).
Proof.
  induction lv as [| o lv IH]; intros acc k Hk; [cbn in Hk; lia |]. cbn [fin_opt map previous_ends].
  set (acc' := match o with Some (_, e) => e | None => acc end).
  assert (match option_map fin_pair o with Some (_, e) => e | None => Fin acc end = Fin acc') as -> by (unfold acc'; destruct o as [[s e] |]; reflexivity).
  destruct k as [| k].
  - exists acc'. split; [reflexivity |]. unfold acc'. destruct o as [[s e] |].
    + left. exists 0%nat, s. split; [lia |]. split; [reflexivity |]. intros q Hq. lia.
    + right. split; [reflexivity |]. intros q Hq. replace q with 0%nat by lia. reflexivity.
  - cbn [nth_error]. destruct (IH acc' k ltac:(cbn in Hk; lia)) as (p & E & [(j & s & J1 & J2 & J3) | [Ep J]]); exists p; (split; [exact E |]).
    + left. exists (S j), s. split; [lia |]. split; [exact J2 |]. intros q Hq. destruct q as [| q]; [lia |]. apply J3. lia.
    + unfold acc' in Ep. destruct o as [[s e] |].
      * left. exists 0%nat, s. split; [lia |]. rewrite Ep. split; [reflexivity |]. intros q Hq. destruct q as [| q]; [lia |]. apply J. lia.
      * right. split; [exact Ep |]. intros q Hq. destruct q as [| q]; [reflexivity |]. apply J. lia.
Qed.
Lemma previous_length : forall l acc, List.length (previous_ends acc l) = List.length l.
Proof. induction l as [| o l IH]; intros acc; [reflexivity |]. cbn. rewrite IH. reflexivity. Qed.
Lemma next_length : forall l, List.length (next_starts l) = List.length l.
Proof. induction l as [| o l IH]; [reflexivity |]. cbn. destruct o as [[s e] |]; cbn; rewrite IH; reflexivity. Qed.

Lemma next_spec : forall lv k, (k < List.length lv)%nat -> exists p, nth_error (next_starts (fin_opt lv)) k = Some (Fin p) /\
  ((exists j e, (k <= j)%nat /\ nth_error lv j = Some (Some (p, e)) /\ forall q, (k <= q < j)%nat -> nth_error lv q = Some None) \/
   (p = 1 /\ forall q, (k <= q < List.length lv)%nat -> nth_error lv q = Some None)).
Proof.
  induction lv as [| o lv IH]; intros k Hk; [cbn in Hk; lia |]. cbn [fin_opt map next_starts]. fold (fin_opt lv). destruct k as [| k].
  - destruct o as [[s e] |]; cbn [option_map fin_pair fst snd].
    + exists s. split; [reflexivity |]. left. exists 0%nat, e. split; [lia |]. split; [reflexivity |]. intros q Hq. lia.
    + cbn [nth_error]. destruct lv as [| o' lv].
      * exists 1. split; [reflexivity |]. right. split; [reflexivity |]. intros q Hq. cbn in Hq. replace q with 0%nat by lia. reflexivity.
      * destruct (IH 0%nat ltac:(cbn; lia)) as (p & E & H). exists p. destruct (next_starts (fin_opt (o' :: lv))) as [| y ys]; [discriminate |]. injection E as ->. split; [reflexivity |].
        destruct H as [(j & e & J1 & J2 & J3) | [-> J]].
        -- left. exists (S j), e. split; [lia |]. split; [exact J2 |]. intros q Hq. destruct q as [| q]; [reflexivity |]. apply J3. lia.
        -- right. split; [reflexivity |]. intros q Hq. destruct q as [| q]; [reflexivity |]. apply J. cbn in *. lia.
  - assert (nth_error (match option_map fin_pair o with Some (s, _) => s :: next_starts (fin_opt lv) | None => match next_starts (fin_opt lv) with y :: _ => y | [] => fz 1 end :: next_starts (fin_opt lv) end) (S k)
      = nth_error (next_starts (fin_opt lv)) k) as -> by (destruct o as [[s e] |]; reflexivity).
    destruct (IH k ltac:(cbn in Hk; lia)) as (p & E & H). exists p. split; [exact E |]. destruct H as [(j & e & J1 & J2 & J3) | [Ep J]].
    + left. exists (S j), e. split; [lia |]. split; [exact J2 |]. intros q Hq. destruct q as [| q]; [lia |]. apply J3. lia.
    + right. split; [exact Ep |]. intros q Hq. destruct q as [| q]; [lia |]. apply J. cbn in Hq. lia.
Qed.

Lemma groups_count : forall table g, groups_from g table = count_from g (map i_valid table).
Proof. induction table as [| i t IH]; intros g; [reflexivity |]. cbn. rewrite IH. reflexivity. Qed.
