(** Sums over the pieces cut by a sorted list of times. *)

From Coq Require Import QArith Qcanon List ZArith Bool Sorted Lia.
From Verif.Base Require Import QcExtra Fl TimeSeries.
Import ListNotations.
Open Scope Qc_scope.

(** Consecutive pairs. *)
Fixpoint consec {A} (l : list A) : list (A * A) :=
  match l with
  | a :: ((b :: _) as l') => (a, b) :: consec l'
  | _ => []
  end.

Lemma consec_In : forall A (l : list A) a b, In (a, b) (consec l) <-> exists l1 l2, l = l1 ++ a :: b :: l2.
Proof.
  induction l as [| x l IH]; intros a b.
  - split; [intros [] | intros ([| y l1] & l2 & E); discriminate].
  - destruct l as [| y l].
    + split; [intros [] |]. intros ([| z [| w l1]] & l2 & E); discriminate.
    + cbn [consec]. split.
      * intros [E | H].
        { injection E as -> ->. exists [], l. reflexivity. }
        apply IH in H. destruct H as (l1 & l2 & E). exists (x :: l1), l2. rewrite E. reflexivity.
      * intros ([| z l1] & l2 & E); [left; injection E as -> -> _; reflexivity |].
        right. apply IH. exists l1, l2. injection E as _ E. exact E.
Qed.

(** A piece: its ends and the antiderivative of what it carries. *)
Definition piece := (Z * Z * (Z -> Qc))%type.
Definition in_piece (v : Z) (p : piece) : bool := let '(a, b, _) := p in ((a <? v) && (v <=? b))%Z.
(** What the piece contributes between [u] and [v]. *)
Definition amount (u v : Z) (p : piece) : Qc := let '(_, _, G) := p in G v - G u.
(** What the piece contributes to the interval [(lo, hi]]. *)
Definition clipped (lo hi : Z) (p : piece) : Qc :=
  let '(a, b, G) := p in
  if (Z.max a lo <? Z.min b hi)%Z then G (Z.min b hi) - G (Z.max a lo) else 0.
Definition meets (lo hi : Z) (p : piece) : bool := let '(a, b, _) := p in (Z.max a lo <? Z.min b hi)%Z.

Lemma qsum_map_ext : forall A (f g : A -> Qc) l, (forall x, In x l -> f x = g x) -> qsum (map f l) = qsum (map g l).
Proof. intros A f g l H. f_equal. apply map_ext_in. exact H. Qed.

Lemma qsum_map_zero : forall A (f : A -> Qc) l, (forall x, In x l -> f x = 0) -> qsum (map f l) = 0.
Proof.
  intros A f l. induction l as [| x l IH]; intros H; [reflexivity |]. cbn [map]. rewrite qsum_cons, IH, (H x).
  - ring.
  - left; reflexivity.
  - intros y Hy. apply H. right. exact Hy.
Qed.

Lemma qsum_swap : forall A B (f : A -> B -> Qc) l1 l2,
  qsum (map (fun x => qsum (map (fun y => f x y) l2)) l1) = qsum (map (fun y => qsum (map (fun x => f x y) l1)) l2).
Proof.
  intros A B f l1 l2. induction l1 as [| x l1 IH].
  - cbn [map]. rewrite qsum_nil. symmetry. apply qsum_map_zero. reflexivity.
  - cbn [map]. rewrite qsum_cons, IH. rewrite <- qsum_map_add. apply qsum_map_ext. intros y _.
    rewrite qsum_cons. reflexivity.
Qed.

(** ** Telescoping *)

Lemma consec_cons : forall A (a b : A) l, consec (a :: b :: l) = (a, b) :: consec (b :: l).
Proof. reflexivity. Qed.

Lemma telescope_below : forall l lo hi (G : Z -> Qc), StronglySorted Z.lt l ->
  (forall t, In t l -> (t <= lo)%Z) ->
  qsum (map (fun uv => if ((lo <? snd uv) && (snd uv <=? hi))%Z then G (snd uv) - G (fst uv) else 0) (consec l)) = 0.
Proof.
  intros l lo hi G HS H. apply qsum_map_zero. intros [u v] Hin. apply consec_In in Hin.
  destruct Hin as (l1 & l2 & ->). cbn [fst snd].
  assert (v <= lo)%Z by (apply H, in_or_app; right; right; left; reflexivity).
  assert (lo <? v = false)%Z as -> by lia. reflexivity.
Qed.

Lemma telescope_above : forall l lo hi (G : Z -> Qc), StronglySorted Z.lt l ->
  (forall t, In t l -> (hi <= t)%Z) ->
  qsum (map (fun uv => if ((lo <? snd uv) && (snd uv <=? hi))%Z then G (snd uv) - G (fst uv) else 0) (consec l)) = 0.
Proof.
  intros l lo hi G HS H. apply qsum_map_zero. intros [u v] Hin. apply consec_In in Hin.
  destruct Hin as (l1 & l2 & ->). cbn [fst snd].
  assert (hi <= u)%Z by (apply H, in_or_app; right; left; reflexivity).
  assert (u < v)%Z.
  { clear - HS. induction l1 as [| x l1 IH]; apply StronglySorted_inv in HS; destruct HS as [HS F]; [| auto].
    inversion F; assumption. }
  assert (v <=? hi = false)%Z as -> by lia. rewrite andb_false_r. reflexivity.
Qed.

(** From a point of the list up. *)
Lemma telescope_from : forall l hi (G : Z -> Qc) lo, StronglySorted Z.lt (lo :: l) -> In hi (lo :: l) ->
  qsum (map (fun uv => if ((lo <? snd uv) && (snd uv <=? hi))%Z then G (snd uv) - G (fst uv) else 0)
            (consec (lo :: l))) = G hi - G lo.
Proof.
  intros l hi G lo HS Hin.
  assert (forall l a, StronglySorted Z.lt (a :: l) -> (lo <= a)%Z -> In hi (a :: l) ->
    qsum (map (fun uv => if ((lo <? snd uv) && (snd uv <=? hi))%Z then G (snd uv) - G (fst uv) else 0)
            (consec (a :: l))) = G hi - G a) as K.
  { clear l HS Hin. induction l as [| b l IH]; intros a HS Hl Hin.
    - destruct Hin as [-> | []]. cbn [consec map]. rewrite qsum_nil. ring.
    - rewrite consec_cons. cbn [map fst snd]. rewrite qsum_cons.
      pose proof (StronglySorted_inv HS) as [HS' F]. pose proof (Forall_inv F) as Hab. cbn beta in Hab.
      assert (lo <? b = true)%Z as -> by lia. cbn [andb].
      destruct Hin as [<- | Hin].
      + rewrite telescope_above; [| exact HS' |].
        2:{ intros t Ht. rewrite Forall_forall in F. specialize (F t Ht). lia. }
        assert (b <=? a = false)%Z as -> by lia. ring.
      + rewrite (IH b HS' ltac:(lia) Hin).
        assert (b <= hi)%Z.
        { destruct Hin as [<- | Hin]; [lia |]. apply StronglySorted_inv in HS'. destruct HS' as [_ F'].
          rewrite Forall_forall in F'. specialize (F' _ Hin). lia. }
        assert (b <=? hi = true)%Z as -> by lia. ring. }
  apply K; [exact HS | lia | exact Hin].
Qed.

Lemma telescope : forall l lo hi (G : Z -> Qc), StronglySorted Z.lt l -> In lo l -> In hi l -> (lo <= hi)%Z ->
  qsum (map (fun uv => if ((lo <? snd uv) && (snd uv <=? hi))%Z then G (snd uv) - G (fst uv) else 0) (consec l)) =
  G hi - G lo.
Proof.
  induction l as [| a l IH]; intros lo hi G HS Hlo Hhi Hle; [destruct Hlo |].
  destruct (Z.eq_dec a lo) as [-> | Ha]; [apply telescope_from; assumption |].
  destruct Hlo as [E | Hlo]; [congruence |].
  pose proof (StronglySorted_inv HS) as [HS' F]. rewrite Forall_forall in F. pose proof (F _ Hlo) as Hal.
  destruct Hhi as [E | Hhi]; [lia |]. destruct l as [| b l]; [destruct Hlo |].
  rewrite consec_cons. cbn [map fst snd]. rewrite qsum_cons, (IH lo hi G HS' Hlo Hhi Hle).
  assert (b <= lo)%Z.
  { destruct Hlo as [<- | Hlo]; [lia |]. apply StronglySorted_inv in HS'. destruct HS' as [_ F'].
    rewrite Forall_forall in F'. specialize (F' _ Hlo). lia. }
  assert (lo <? b = false)%Z as -> by lia. cbn [andb]. ring.
Qed.

(** ** Summing what the pieces carry over an interval *)

Lemma pieces_total : forall l lo hi ps, StronglySorted Z.lt l -> In lo l -> In hi l -> (lo <= hi)%Z ->
  (forall a b G, In (a, b, G) ps -> In a l /\ In b l) ->
  qsum (map (fun uv => qsum (map (fun p => if in_piece (snd uv) p then amount (fst uv) (snd uv) p else 0) ps))
            (filter (fun uv => ((lo <? snd uv) && (snd uv <=? hi))%Z) (consec l))) =
  qsum (map (clipped lo hi) ps).
Proof.
  intros l lo hi ps HS Hlo Hhi Hle HP.
  assert (forall (f : Z * Z -> Qc) p k, qsum (map f (filter p k)) = qsum (map (fun x => if p x then f x else 0) k)) as FI.
  { intros f p k. induction k as [| x k IH]; [reflexivity |]. cbn [filter map]. rewrite qsum_cons, <- IH.
    destruct (p x); [cbn [map]; rewrite qsum_cons; reflexivity | ring]. }
  rewrite FI.
  transitivity (qsum (map (fun uv => qsum (map (fun p => if ((lo <? snd uv) && (snd uv <=? hi))%Z
    then if in_piece (snd uv) p then amount (fst uv) (snd uv) p else 0 else 0) ps)) (consec l))).
  { apply qsum_map_ext. intros [u v] _. cbn [fst snd]. destruct ((lo <? v) && (v <=? hi))%Z; [reflexivity |].
    symmetry. apply qsum_map_zero. reflexivity. }
  rewrite qsum_swap. apply qsum_map_ext. intros [[a b] G] Hp. destruct (HP _ _ _ Hp) as [Ha Hb].
  unfold clipped, in_piece, amount. destruct (Z.max a lo <? Z.min b hi)%Z eqn:E.
  - apply Z.ltb_lt in E. rewrite <- (telescope l (Z.max a lo) (Z.min b hi) G); [| exact HS | | | lia].
    + apply qsum_map_ext. intros [u v] _. cbn [fst snd].
      destruct (lo <? v)%Z eqn:E1, (v <=? hi)%Z eqn:E2, (a <? v)%Z eqn:E3, (v <=? b)%Z eqn:E4; cbn [andb];
        destruct (Z.max a lo <? v)%Z eqn:E5, (v <=? Z.min b hi)%Z eqn:E6; cbn [andb]; try reflexivity; lia.
    + destruct (Z.max_spec a lo) as [[_ ->] | [_ ->]]; assumption.
    + destruct (Z.min_spec b hi) as [[_ ->] | [_ ->]]; assumption.
  - apply Z.ltb_ge in E. apply qsum_map_zero. intros [u v] _. cbn [fst snd].
    destruct (lo <? v)%Z eqn:E1, (v <=? hi)%Z eqn:E2, (a <? v)%Z eqn:E3, (v <=? b)%Z eqn:E4; cbn [andb]; try reflexivity; lia.
Qed.

Lemma pieces_meet : forall l lo hi ps, StronglySorted Z.lt l -> In lo l -> In hi l ->
  (forall a b G, In (a, b, G) ps -> In a l /\ In b l) ->
  ((exists uv, In uv (filter (fun uv => ((lo <? snd uv) && (snd uv <=? hi))%Z) (consec l)) /\
               existsb (in_piece (snd uv)) ps = true) <->
   existsb (meets lo hi) ps = true).
Proof.
  intros l lo hi ps HS Hlo Hhi HP. split.
  - intros ([u v] & H & E). apply filter_In in H. destruct H as [_ H]. cbn [snd] in *.
    apply existsb_exists in E. destruct E as ([[a b] G] & Hp & E). apply existsb_exists. exists (a, b, G).
    split; [exact Hp |]. unfold in_piece in E. unfold meets. lia.
  - intros E. apply existsb_exists in E. destruct E as ([[a b] G] & Hp & E). unfold meets in E. apply Z.ltb_lt in E.
    destruct (HP _ _ _ Hp) as [Ha Hb].
    (* the point of the list reached by the end of the overlap has a predecessor *)
    assert (In (Z.min b hi) l) as Hm by (destruct (Z.min_spec b hi) as [[_ ->] | [_ ->]]; assumption).
    assert (In (Z.max a lo) l) as HM by (destruct (Z.max_spec a lo) as [[_ ->] | [_ ->]]; assumption).
    assert (exists u, In (u, Z.min b hi) (consec l)) as [u Hu].
    { apply in_split in Hm. destruct Hm as (l1 & l2 & El). destruct l1 as [| x l1] using rev_ind.
      - exfalso. subst l. cbn [app] in *. apply StronglySorted_inv in HS. destruct HS as [_ F].
        rewrite Forall_forall in F. destruct HM as [K | K]; [lia | specialize (F _ K); lia].
      - exists x. apply consec_In. exists l1, l2. rewrite El, <- app_assoc. reflexivity. }
    exists (u, Z.min b hi). split.
    + apply filter_In. split; [exact Hu |]. cbn [snd]. lia.
    + cbn [snd]. apply existsb_exists. exists (a, b, G). split; [exact Hp |]. unfold in_piece. lia.
Qed.

(** ** [sum(min_count=1)] *)

Lemma fsum1_noinf : forall l, noinf l ->
  fsum1 l = match finvals l with [] => NaN | _ => Fin (qsum (finvals l)) end.
Proof.
  intros l H. unfold fsum1. rewrite dropna_noinf by exact H. rewrite fsum_noinf by exact H.
  destruct (finvals l); reflexivity.
Qed.

(** The sum over an interval of a quantity that is carried by the pieces and is NaN
    outside of them. *)
Lemma pieces_fsum1 : forall l lo hi ps (h : Z * Z -> fl), StronglySorted Z.lt l -> In lo l -> In hi l -> (lo <= hi)%Z ->
  (forall a b G, In (a, b, G) ps -> In a l /\ In b l) ->
  (forall u v, In (u, v) (consec l) ->
     h (u, v) = if existsb (in_piece v) ps
                then Fin (qsum (map (fun p => if in_piece v p then amount u v p else 0) ps)) else NaN) ->
  fsum1 (map h (filter (fun uv => ((lo <? snd uv) && (snd uv <=? hi))%Z) (consec l))) =
  if existsb (meets lo hi) ps then Fin (qsum (map (clipped lo hi) ps)) else NaN.
Proof.
  intros l lo hi ps h HS Hlo Hhi Hle HP Hh.
  set (F := filter (fun uv => ((lo <? snd uv) && (snd uv <=? hi))%Z) (consec l)).
  assert (forall uv, In uv F -> h uv = if existsb (in_piece (snd uv)) ps
     then Fin (qsum (map (fun p => if in_piece (snd uv) p then amount (fst uv) (snd uv) p else 0) ps)) else NaN) as HF.
  { intros [u v] H. apply filter_In in H. apply Hh. apply H. }
  rewrite fsum1_noinf.
  2:{ intros x Hx. apply in_map_iff in Hx. destruct Hx as (uv & <- & Hx). rewrite (HF _ Hx).
      destruct (existsb (in_piece (snd uv)) ps); split; discriminate. }
  destruct (existsb (meets lo hi) ps) eqn:E.
  - apply (pieces_meet l lo hi ps HS Hlo Hhi HP) in E. destruct E as (uv & Huv & Euv). fold F in Huv.
    rewrite <- (pieces_total l lo hi ps HS Hlo Hhi Hle HP). fold F.
    assert (qsum (finvals (map h F)) = qsum (map (fun uv => qsum (map (fun p => if in_piece (snd uv) p then amount (fst uv) (snd uv) p else 0) ps)) F)) as EQ.
    { clear Huv. clearbody F. induction F as [| x F IH]; [reflexivity |]. cbn [map finvals].
      rewrite qsum_cons, <- IH by (intros; apply HF; right; assumption).
      rewrite (HF x (or_introl eq_refl)). destruct (existsb (in_piece (snd x)) ps) eqn:Ex.
      - rewrite qsum_cons. reflexivity.
      - rewrite (qsum_map_zero _ _ ps); [ring |]. intros p Hp.
        destruct (in_piece (snd x) p) eqn:Ep; [| reflexivity].
        assert (existsb (in_piece (snd x)) ps = true) by (apply existsb_exists; eauto). congruence. }
    destruct (finvals (map h F)) eqn:Ef; [| rewrite EQ; reflexivity].
    exfalso. assert (In (qsum (map (fun p => if in_piece (snd uv) p then amount (fst uv) (snd uv) p else 0) ps)) (finvals (map h F))) as K.
    { apply finvals_In. apply in_map_iff. exists uv. split; [| exact Huv]. rewrite (HF _ Huv), Euv. reflexivity. }
    rewrite Ef in K. destruct K.
  - assert (finvals (map h F) = []) as ->; [| reflexivity].
    destruct (finvals (map h F)) as [| q k] eqn:Ef; [reflexivity | exfalso].
    assert (In q (finvals (map h F))) as K by (rewrite Ef; left; reflexivity).
    apply finvals_In, in_map_iff in K. destruct K as (uv & K & Hin). rewrite (HF _ Hin) in K.
    destruct (existsb (in_piece (snd uv)) ps) eqn:Ex; [| discriminate].
    assert (existsb (meets lo hi) ps = true) by (apply (pieces_meet l lo hi ps HS Hlo Hhi HP); exists uv; auto).
    congruence.
Qed.
