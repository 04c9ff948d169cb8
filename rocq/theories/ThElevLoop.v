(** The main loop of DegreeAlgo.cpp on the reals. *)
From Coq Require Import Reals ZArith List Lra Lia Permutation FunctionalExtensionality.
From Verif Require Import Outcome Num ModelCore ModelAlgo SpecCore SpecBasis SpecBezier ThOutcome ThReal ThKnots ThMath ThSum ThVec ThSpline ThBasis ThCurve ThInsert
  ThRemove ThReverse ThPolar ThElevKnots ThElevPos ThElevForm ThElevCode ThElevRemove.
Import ListNotations.
Open Scope Z_scope.

Lemma while_descend {S} (I Fn : S -> Prop) (mu : S -> Z) (cond : S -> outcome bool) (body : S -> outcome S) :
  (forall s, I s -> 0 < mu s /\ cond s = Ok true /\ exists s', body s = Ok s' /\ ((I s' /\ mu s' < mu s) \/ Fn s')) ->
  (forall s, Fn s -> cond s = Ok false) -> forall fuel s, I s -> mu s <= Z.of_nat fuel -> exists s', while_ fuel cond body s = Ok s' /\ Fn s'.
Proof.
  intros St En. induction fuel as [|fuel IH]; intros s Hs Hf; destruct (St s Hs) as [Mu [Ec [s' [Eb H]]]].
  - lia.
  - cbn [while_]. rewrite Ec. cbn [bind]. rewrite Eb. cbn [bind]. destruct H as [[H1 H2]|H].
    + apply IH; [exact H1|lia].
    + exists s'. split; [|exact H]. destruct fuel; cbn [while_]; rewrite (En _ H); reflexivity.
Qed.

Definition lbz_of (r : Z) : Z := if r >? 0 then Z.quot (r + 2) 2 else 1.
Definition rbz_of (ph r : Z) : Z := if r >? 0 then ph - Z.quot (r + 1) 2 else ph.
Lemma lbz_spec r : (1 <= r -> r + 1 <= 2 * lbz_of r <= r + 2) /\ (r <= 0 -> lbz_of r = 1).
Proof.
  unfold lbz_of. rewrite Z.gtb_ltb. destruct (Z.ltb_spec 0 r); split; intros; try lia.
  pose proof (Z.quot_rem' (r + 2) 2). pose proof (Z.rem_bound_pos (r + 2) 2). lia.
Qed.
Lemma rbz_spec ph r : (1 <= r -> r <= 2 * (ph - rbz_of ph r) <= r + 1) /\ (r <= 0 -> rbz_of ph r = ph).
Proof.
  unfold rbz_of. rewrite Z.gtb_ltb. destruct (Z.ltb_spec 0 r); split; intros; try lia.
  pose proof (Z.quot_rem' (r + 1) 2). pose proof (Z.rem_bound_pos (r + 1) 2). lia.
Qed.

Section Loop.
  Variables (p t : Z) (K : list R) (pts : list (vec4 R)) (P : Z -> vec4 R).
  Hypothesis C : clamped p K.
  Hypothesis P1 : 1 <= p.
  Hypothesis T : 1 <= t.
  Hypothesis Lp : len pts = len K - p - 1.
  Hypothesis HP : forall i, 0 <= i < len pts -> vget pts i = Ok (P i).
  Local Notation ph := (p + t).
  Local Notation V := (kf (EV t K)).
  Local Notation F := (FV K P (Z.to_nat t)).
  Hypothesis Sep : forall j, brk K j -> ~ close (kf K j) (kf K (j + 1)).
  Hypothesis Mul : forall a0 a, adj K a0 a -> a - a0 <= p.
  Hypothesis Pat : (forall i, P i = P 0) \/ forall a1 a0 a, adj K a1 a0 -> adj K a0 a -> a - a0 <= a0 - a1 + 1 \/ p <= a - a0 + 2 * (a0 - a1 + t) + 2.
  Variable bufn : Z.
  Hypothesis Buf : len (EV t K) - ph - 1 <= bufn.
  Let T0 : 0 <= t := Z.le_trans 0 1 t Z.le_0_1 T.

  Lemma bet_ok (Pt : forall a1 a0 a, adj K a1 a0 -> adj K a0 a -> a - a0 <= a0 - a1 + 1 \/ p <= a - a0 + 2 * (a0 - a1 + t) + 2) a0 a k : adj K a0 a -> 0 <= k -> k < a - a0 + t - 1 -> k <= p - (a - a0) - 1 - lbz_of (p - (a - a0)) -> 
    2 <= p - (a - a0) -> V (pos t K a0 - k) = V (pos t K a0).
  Proof.
    intros A Hk H1 H2 H3. pose proof A as [B0 _]. pose proof (lbz_spec (p - (a - a0))) as [Lz _]. specialize (Lz ltac:(lia)).
    destruct (Z.eq_dec a0 p) as [->|Ne].
    - rewrite (pos_first p t K C T0). rewrite !(ev_zero p t K C T0) by lia. reflexivity.
    - pose proof (brk_range p K C a0 B0) as R0. destruct (prev_break p K C p a0 (brk_first p K C) B0 ltac:(lia)) as [a1 [A1 _]].
      pose proof (pos_adj t K T0 a1 a0 A1) as E. pose proof A1 as [B1 [_ [L1 _]]]. pose proof (Pt a1 a0 a A1 A) as Hp.
      rewrite !(ev_between t K T0 a1 a0 _ A1) by lia. reflexivity.
  Qed.
  Lemma cut_early ua ub i a : brk K a -> (kf K a <= ua)%R -> (kf K a <= ub)%R -> i + ph <= pos t K a ->
    run (cut t K ua) i (Z.to_nat ph) = run (cut t K ub) i (Z.to_nat ph).
  Proof.
    intros Ba H1 H2 Hi. apply run_ext. intros k Hk. rewrite nn_of in Hk by lia. pose proof (V_mono p t K C T0 k (pos t K a) ltac:(lia)) as M.
    rewrite (ev_at_pos t K T0 a Ba) in M. rewrite !cut_low by lra. reflexivity.
  Qed.
  Lemma seg_high a b l : brk K a -> next_run K a b -> 0 <= l <= ph -> (forall i, pos t K a - ph + l < i <= pos t K a -> V i = kf K a) ->
    F a (run (cut t K (kf K b)) (pos t K a - ph + l) (Z.to_nat ph)) = F a (two (kf K b) (kf K a) (Z.to_nat l) (Z.to_nat (ph - l))).
  Proof.
    intros Ba Nr Hl E. pose proof Nr as [Hb [Eb _]]. replace (Z.to_nat ph) with (Z.to_nat ((ph - l) + l)) by (f_equal; lia). rewrite run_Z_app by lia.
    replace (pos t K a - ph + l + (ph - l)) with (pos t K a) by lia.
    assert (kf K (a + 1) = kf K b) as E1 by (apply Eb; lia). pose proof Ba as [_ Lt].
    rewrite (run_Z_const _ _ (ph - l) (kf K a)).
    - rewrite (run_Z_const _ _ l (kf K b)).
      + unfold two. apply (FV_perm p K P C); [exact Ba|rewrite !app_length, !repeat_length; lia|]. apply Permutation_app_comm.
      + intros k Hk. apply cut_high. pose proof (V_mono p t K C T0 (pos t K a + 1) k ltac:(lia)) as M. rewrite (ev_after_pos t K T0 a Ba) in M. lra.
    - intros k Hk. unfold cut. rewrite E by lia. apply Rmin_right. lra.
  Qed.

  (** the run of new knots at index [i] cut off at [u] gives the control point *)
  Definition good (a : Z) (u : R) (i : Z) (o : outcome (option (vec4 R))) : Prop :=
    exists a', brk K a' /\ a' <= a /\ i <= pos t K a' <= i + ph /\ o = Ok (Some (F a' (run (cut t K u) i (Z.to_nat ph)))).
  Definition first_or (a r kind cind : Z) (eb : list (option (vec4 R))) : Prop :=
    (a = p /\ r = -1 /\ kind = ph + 1 /\ cind = 1) \/
    (exists a0, adj K a0 a /\ r = p - (a - a0) /\ kind = pos t K a0 + 1 /\ cind = pos t K a - ph + lbz_of r /\
      (forall l, 1 <= l <= ph -> exists e, vget eb l = Ok (Some e))).
  Definition Inv (st : estate (T := R)) : Prop :=
    brk K (es_a st) /\ es_b st = es_a st + 1 /\ es_ua st = kf K (es_a st) /\ es_mh st = pos t K (es_a st) /\
    first_or (es_a st) (es_r st) (es_kind st) (es_cind st) (es_ebpts st) /\
    len (es_Qw st) = bufn /\ len (es_Uh st) = bufn + ph + 1 /\ len (es_bpts st) = p + 1 /\ len (es_nextbpts st) = p - 1 /\ len (es_ebpts st) = ph + 1 /\
    (forall i, 0 <= i < es_kind st -> vget (es_Uh st) i = Ok (V i)) /\
    (forall ub k, 0 <= k <= p -> vget (es_bpts st) k = Ok (G p K P (es_a st) ub k 0)) /\
    (forall i, 0 <= i < es_cind st -> good (es_a st) (es_ua st) i (vget (es_Qw st) i)).
  Definition Fin (st : estate (T := R)) : Prop :=
    es_b st = len K - 1 /\ es_mh st = len (EV t K) - 1 /\ len (es_Qw st) = bufn /\ len (es_Uh st) = bufn + ph + 1 /\
    (forall i, 0 <= i < len (EV t K) -> vget (es_Uh st) i = Ok (V i)) /\
    (forall i, 0 <= i < len (EV t K) - ph - 1 -> exists a', brk K a' /\ i <= pos t K a' <= i + ph /\ vget (es_Qw st) i = Ok (Some (F a' (run V i (Z.to_nat ph))))) /\
    es_cind st = len (EV t K) - ph - 1.

  Lemma remove_stage a b r kind cind Uh Qw eb : brk K a -> next_run K a b -> first_or a r kind cind eb ->
    len Qw = bufn -> cind <= bufn -> len eb = ph + 1 -> (forall i, 0 <= i < kind -> vget Uh i = Ok (V i)) ->
    (forall i, 0 <= i < cind -> good a (kf K a) i (vget Qw i)) ->
    (forall l, lbz_of r <= l <= ph -> vget eb l = Ok (Some (F a (two (kf K b) (kf K a) (Z.to_nat l) (Z.to_nat (ph - l)))))) ->
    exists Qw' eb', elevation_remove ph kind (lbz_of r) cind r (kf K a) (kf K b) Uh Qw eb = Ok (Qw', eb') /\ len Qw' = bufn /\ len eb' = ph + 1 /\
      (forall i, 0 <= i < cind -> good a (kf K b) i (vget Qw' i)) /\
      (forall l, 1 <= l <= ph -> exists e, vget eb' l = Ok (Some e)) /\
      (forall l, lbz_of r <= l <= ph -> vget eb' l = Ok (Some (F a (run (cut t K (kf K b)) (pos t K a - ph + l) (Z.to_nat ph))))).
  Proof.
    intros Ba Nr Fo LQ Hc Le HU HQ HE. pose proof Nr as [Hb [Eb _]]. pose proof Ba as [_ Lt]. assert (kf K (a + 1) = kf K b) as E1 by (apply Eb; lia).
    assert (r <= 1 -> exists Qw' eb', elevation_remove ph kind (lbz_of r) cind r (kf K a) (kf K b) Uh Qw eb = Ok (Qw', eb') /\ len Qw' = bufn /\ len eb' = ph + 1 /\
      (forall i, 0 <= i < cind -> good a (kf K b) i (vget Qw' i)) /\
      (forall l, 1 <= l <= ph -> exists e, vget eb' l = Ok (Some e)) /\
      (forall l, lbz_of r <= l <= ph -> vget eb' l = Ok (Some (F a (run (cut t K (kf K b)) (pos t K a - ph + l) (Z.to_nat ph)))))) as Small.
    { intros Hr. unfold elevation_remove. rewrite Z.gtb_ltb. destruct (Z.ltb_spec 1 r); [lia|]. exists Qw, eb. split; [reflexivity|]. split; [exact LQ|]. split; [exact Le|].
      assert (lbz_of r = 1) as El by (pose proof (lbz_spec r); lia). rewrite El in *.
      assert (cind = pos t K a - ph + 1 /\ forall l, 1 <= l <= ph -> forall i, pos t K a - ph + l < i <= pos t K a -> V i = kf K a) as [Ec Hv].
      { destruct Fo as [[-> [_ [_ ->]]]|[a0 [A [Er [_ [Ec _]]]]]].
        - rewrite (pos_first p t K C T0). split; [lia|]. intros l Hl i Hi. rewrite (ev_zero p t K C T0) by lia.
          rewrite kf_at by (pose proof (cl_len _ _ C); lia). symmetry. apply (cl_zero _ _ C). lia.
        - split; [rewrite Ec, El; lia|]. intros l Hl i Hi. pose proof (pos_adj t K T0 a0 a A). apply (ev_between t K T0 a0 a); [exact A|lia]. }
      split; [|split].
      - intros i Hi. destruct (HQ i Hi) as [a' [Ba' [L' [Hp E']]]]. exists a'. split; [exact Ba'|]. split; [exact L'|]. split; [exact Hp|]. rewrite E'. do 3 f_equal.
        apply (cut_early _ _ i a); [exact Ba|lra|lra|lia].
      - intros l Hl. eexists. apply HE. lia.
      - intros l Hl. rewrite HE by exact Hl. do 2 f_equal. symmetry. apply seg_high; try assumption; [lia|]. apply Hv. lia. }
    destruct (Z_le_gt_dec r 1) as [Hr|Hr]; [apply Small; exact Hr|]. clear Small.
    destruct Fo as [[_ [Er _]]|[a0 [A [Er [Ek [Ec He]]]]]]; [lia|].
    pose proof (pos_adj t K T0 a0 a A) as Pa. pose proof (lbz_spec r) as [Lz _]. specialize (Lz ltac:(lia)). pose proof (Mul a0 a A) as Mu. pose proof A as [_ [_ [La0 _]]].
    assert (kind = pos t K a - ph + (p - (a - a0)) + 1) as Ek' by lia. subst kind cind r.
    rewrite Ek' in *.
    destruct (remove_ok p t K P C T a0 a (kf K b) A ltac:(lra) Mu Uh HU ltac:(lia) (lbz_of (p - (a - a0))) Lz) with (Qw := Qw) (eb := eb)
      as [Qw' [eb' [E [L1 [L2 [O1 [GQ [Ge GE]]]]]]]].
    - destruct Pat as [Fl|Pt]; [left; exact Fl|right]. intros k Hk H1 H2. replace (pos t K a - ph + (p - (a - a0)) - k) with (pos t K a0 - k) by lia. replace (pos t K a - ph + (p - (a - a0))) with (pos t K a0) by lia.
      apply (bet_ok Pt a0 a); try assumption. lia.
    - lia.
    - exact Le.
    - intros l Hl. pose proof (base_nonneg p t K C T a0 a A) as Hb0. destruct (HQ (pos t K a - ph + l) ltac:(lia)) as [a' [Ba' [L' [Hp E']]]]. rewrite E'. do 2 f_equal.
      rewrite <- (Qf_start p t K P C T a0 a (kf K b) A Mu) by lia. apply (FV_run p t K P C T0); try assumption; try lia; lra.
    - exact He.
    - intros l Hl. rewrite HE by exact Hl. do 2 f_equal. unfold Ef, two. cbn [Z.to_nat run app]. rewrite Z.sub_0_r. apply (FV_perm p K P C); [exact Ba|rewrite app_length, !repeat_length; lia|].
      apply Permutation_app_comm.
    - exists Qw', eb'. split; [exact E|]. split; [lia|]. split; [exact L2|]. split; [|split; [exact Ge|]].
      + intros i Hi. destruct (Z_lt_le_dec i (pos t K a - ph)) as [Hi'|Hi'].
        * destruct (HQ i Hi) as [a' [Ba' [L' [Hp E']]]]. exists a'. split; [exact Ba'|]. split; [exact L'|]. split; [exact Hp|]. rewrite O1 by lia. rewrite E'. do 3 f_equal.
          apply (cut_early _ _ i a); [exact Ba|lra|lra|lia].
        * exists a. split; [exact Ba|]. split; [lia|]. split; [lia|]. replace i with (pos t K a - ph + (i - (pos t K a - ph))) by lia.
          rewrite GQ by lia. do 2 f_equal. symmetry. apply (Qf_end p t K P C T a0 a (kf K b) A); [lra|exact Mu|lia|lra].
      + intros l Hl. rewrite GE by exact Hl. do 2 f_equal. destruct (Z_le_gt_dec l (p - (a - a0))) as [Hl'|Hl'].
        * rewrite Z.max_r by lia. rewrite (Qf_end p t K P C T a0 a (kf K b) A) by (try lra; lia). apply (Ef_end p t K P C T a0 a (kf K b) A). lia.
        * rewrite Z.max_l by lia. rewrite (seg_high a b l Ba Nr) by first [lia | intros i Hi; apply (ev_between t K T0 a0 a); [exact A|lia]].
          unfold Ef, two. cbn [Z.to_nat run app]. rewrite Z.sub_0_r. apply (FV_perm p K P C); [exact Ba|rewrite app_length, !repeat_length; lia|].
          apply Permutation_app_comm.
  Qed.
  Lemma cind_bound a r kind cind eb : brk K a -> first_or a r kind cind eb -> cind = pos t K a - ph + lbz_of r /\ r <= p - 1 /\ -1 <= r /\ 0 <= pos t K a - ph /\
    pos t K a + ph + 2 <= len (EV t K).
  Proof.
    intros Ba Fo. pose proof (brk_range p K C a Ba) as Ra. pose proof (pos_le p t K C T0 p a (brk_first p K C) Ba ltac:(lia)) as L1. rewrite (pos_first p t K C T0) in L1.
    pose proof (pos_le p t K C T0 a (len K - p - 2) Ba (brk_last p K C) ltac:(lia)) as L2. pose proof (ev_len_last p t K C T0) as L3.
    destruct Fo as [[-> [-> [_ ->]]]|[a0 [A [-> [_ [-> _]]]]]].
    - rewrite (pos_first p t K C T0). pose proof (lbz_spec (-1)) as [_ H]. rewrite H by lia. lia.
    - pose proof (Mul a0 a A). pose proof A as [_ [_ [La _]]]. lia.
  Qed.
  Lemma step_ok bzm st : (forall i j, 0 <= i <= ph -> band p t i j -> get2 bzm i j = Ok (bz p t i j)) -> Inv st ->
    exists st', elevation_step K pts p t (len K - 1) bzm st = Ok st' /\ ((Inv st' /\ es_b st < es_b st') \/ Fin st').
  Proof.
    intros Hz I. destruct st as [mh kind r a b0 cind ua Qw Uh bp nb eb]. unfold Inv in I. cbn [es_mh es_kind es_r es_a es_b es_cind es_ua es_Qw es_Uh es_bpts es_nextbpts es_ebpts] in I.
    destruct I as [Ba [Eb0 [Eua [Emh [Fo [LQ [LU [Lb [Ln [Le [HU [Hb HQ]]]]]]]]]]]]. subst b0 ua mh.
    unfold elevation_step. cbn [es_mh es_kind es_r es_a es_b es_cind es_ua es_Qw es_Uh es_bpts es_nextbpts es_ebpts].
    destruct (next_run_ex p K C a Ba) as [b Nr]. rewrite (scan_ok K a b Ba Nr Sep). cbn [bind]. pose proof Nr as [Hab [Eab _]]. pose proof (brk_range p K C a Ba) as Ra.
    rewrite vget_kf by lia. cbn [bind]. replace (b - (a + 1) + 1) with (b - a) by lia. fold (lbz_of r). fold (rbz_of ph (p - (b - a))).
    destruct (cind_bound a r kind cind eb Ba Fo) as [Ec [Hr1 [Hr0 [Hbase Htop]]]]. pose proof (lbz_spec r) as [Lz1 Lz0]. set (lbz := lbz_of r) in *.
    set (r' := p - (b - a)). pose proof (rbz_spec ph r') as [Rz1 Rz0]. set (rbz := rbz_of ph r') in *.
    assert (1 <= lbz <= ph /\ 2 * lbz <= p + 1) as Hlz by lia.
    assert (r' <= p - 1) as Hr' by (unfold r'; lia).
    assert (lbz <= rbz + 1 /\ rbz <= ph) as Hrz by lia.
    destruct (insert_ok p K P C P1 a b bp nb Ba Nr Lb Ln (Hb (kf K b))) as [bp1 [nb1 [E1 [Lb1 [Ln1 [Hb1 Hn1]]]]]]. fold r' in E1, Hn1. rewrite E1. cbn [bind]. clear E1.
    destruct (bezier_ok p t K P C P1 T a (kf K b) lbz bzm bp1 eb ltac:(lia) Le Lb1 Hz Hb1) as [eb1 [E2 [Le1 [Oe1 He1]]]]. rewrite E2. cbn [bind]. clear E2.
    assert (first_or a r kind cind eb1) as Fo1.
    { destruct Fo as [Fo|[a0 [A [F1 [F2 [F3 F4]]]]]]; [left; exact Fo|right]. exists a0. split; [exact A|]. split; [exact F1|]. split; [exact F2|]. split; [exact F3|].
      intros l Hl. destruct (Z_lt_le_dec l lbz) as [Hl'|Hl']; [rewrite Oe1 by exact Hl'; apply F4; exact Hl|eexists; apply He1; lia]. }
    destruct (remove_stage a b r kind cind Uh Qw eb1 Ba Nr Fo1 LQ ltac:(lia) Le1 HU HQ He1) as [Qw1 [eb2 [E3 [LQ1 [Le2 [HQ1 [Se2 He2]]]]]]]. fold lbz in E3, He2. rewrite E3. cbn [bind]. clear E3.
    (* knots *)
    assert (exists Uh1, (if negb (a =? p) then for_up 0 (ph - r) (fun _ '(Uh, kind) => Uh <- vset Uh kind (kf K a) ;; Ok (Uh, kind + 1)) (Uh, kind) else Ok (Uh, kind)) = Ok (Uh1, pos t K a + 1) /\
      len Uh1 = bufn + ph + 1 /\ forall i, 0 <= i <= pos t K a -> vget Uh1 i = Ok (V i)) as [Uh1 [E4 [LU1 HU1]]].
    { destruct Fo as [[-> [-> [-> _]]]|[a0 [A [F1 [-> [_ _]]]]]].
      - rewrite Z.eqb_refl. cbn [negb]. exists Uh. rewrite (pos_first p t K C T0). split; [reflexivity|]. split; [exact LU|]. intros i Hi. apply HU. lia.
      - pose proof A as [B0 [_ [La _]]]. pose proof (brk_range p K C a0 B0). destruct (Z.eqb_spec a p); [lia|]. cbn [negb]. pose proof (pos_adj t K T0 a0 a A) as Pa.
        pose proof (pos_nonneg t K T0 a0 B0) as Pn.
        match goal with |- context [for_up 0 (ph - r) ?bo ?s0] =>
          destruct (for_up_inv (fun i (s : list R * Z) => snd s = pos t K a0 + 1 + i /\ len (fst s) = bufn + ph + 1 /\ forall j, 0 <= j < pos t K a0 + 1 + i -> vget (fst s) j = Ok (V j))
            0 (ph - r) bo s0) as [[Uh1 k1] [E [Ek [L1 H1]]]] end.
        + lia.
        + cbn [fst snd]. split; [lia|]. split; [exact LU|]. intros j Hj. apply HU. lia.
        + intros i [U1 k1] Hi [Ek [L1 H1]]. cbn [fst snd] in *. destruct (vset_spec U1 k1 (kf K a)) as [U2 [E2 [L2 [G2 O2]]]]; [lia|]. rewrite E2. cbn [bind].
          eexists. split; [reflexivity|]. cbn [fst snd]. split; [lia|]. split; [lia|]. intros j Hj. destruct (Z.eq_dec j k1) as [->|Ne].
          * rewrite G2. f_equal. symmetry. apply (ev_between t K T0 a0 a); [exact A|lia].
          * rewrite O2 by exact Ne. apply H1. lia.
        + cbn [fst snd] in *. exists Uh1. split; [rewrite E; f_equal; f_equal; lia|]. split; [exact L1|]. intros i Hi. apply H1. lia. }
    rewrite E4. cbn [bind]. clear E4.
    (* control points *)
    match goal with |- context [for_up lbz (rbz + 1) ?bo ?s0] =>
      destruct (for_up_inv (fun j (s : list (option (vec4 R)) * Z) => snd s = pos t K a - ph + j /\ len (fst s) = bufn /\
        forall i, 0 <= i < pos t K a - ph + j -> good a (kf K b) i (vget (fst s) i)) lbz (rbz + 1) bo s0) as [[Qw2 cind2] [E5 [Ec2 [LQ2 HQ2]]]] end.
    - lia.
    - cbn [fst snd]. split; [exact Ec|]. split; [exact LQ1|]. intros i Hi. apply HQ1. lia.
    - intros j [Q1 c1] Hj [Ec1 [L1 H1]]. cbn [fst snd] in *. rewrite He2 by lia. cbn [bind].
      match goal with |- context [vset Q1 c1 ?x] => destruct (vset_spec Q1 c1 x) as [Q2 [E2 [L2 [G2 O2]]]]; [lia|] end. rewrite E2. cbn [bind].
      eexists. split; [reflexivity|]. cbn [fst snd]. split; [lia|]. split; [lia|]. intros i Hi. destruct (Z.eq_dec i c1) as [->|Ne].
      + exists a. split; [exact Ba|]. split; [lia|]. split; [lia|]. rewrite G2, Ec1. reflexivity.
      + rewrite O2 by exact Ne. apply H1. lia.
    - rewrite E5. cbn [bind fst snd] in *. clear E5. destruct (Z.ltb_spec b (len K - 1)) as [Hbm|Hbm].
      + (* next span *)
        pose proof (run_adj K a b Ba Nr Hbm) as Ab. pose proof (Mul a b Ab) as Mb. pose proof Ab as [_ [Bb _]].
        match goal with |- context [for_up 0 r' ?bo ?s0] =>
          destruct (for_up_inv (fun j (s : list (vec4 R)) => len s = p + 1 /\ forall ub k, 0 <= k < j -> vget s k = Ok (G p K P b ub k 0)) 0 r' bo s0) as [bp2 [E6 [L6 H6]]] end.
        * unfold r'. lia.
        * split; [exact Lb1|]. intros; lia.
        * intros j s Hj [Ls Hs]. rewrite (ugets_get _ _ _ (Hn1 j ltac:(lia))). cbn [bind].
          match goal with |- context [vset s j ?x] => destruct (vset_spec s j x) as [s2 [E2 [L2 [G2 O2]]]]; [lia|] end. exists s2. split; [exact E2|]. split; [lia|].
          intros ub k Hk. destruct (Z.eq_dec k j) as [->|Ne].
          -- rewrite G2. f_equal. apply (next_low p K P C P1); assumption || (unfold r' in *; lia).
          -- rewrite O2 by exact Ne. apply Hs. lia.
        * rewrite E6. cbn [bind]. clear E6.
          match goal with |- context [for_up r' (p + 1) ?bo ?s0] =>
            destruct (for_up_inv (fun j (s : list (vec4 R)) => len s = p + 1 /\ forall ub k, 0 <= k < j -> vget s k = Ok (G p K P b ub k 0)) r' (p + 1) bo s0) as [bp3 [E7 [L7 H7]]] end.
          -- unfold r'. lia.
          -- split; [exact L6|exact H6].
          -- intros j s Hj [Ls Hs]. pose proof (brk_range p K C b Bb) as Rb. rewrite HP by (unfold r' in *; lia). cbn [bind].
             match goal with |- context [vset s j ?x] => destruct (vset_spec s j x) as [s2 [E2 [L2 [G2 O2]]]]; [unfold r' in *; lia|] end. exists s2. split; [exact E2|]. split; [lia|].
             intros ub k Hk. destruct (Z.eq_dec k j) as [->|Ne].
             ++ rewrite G2. f_equal. apply (next_high p K P C a b); assumption || (unfold r' in *; lia).
             ++ rewrite O2 by exact Ne. apply Hs. lia.
          -- rewrite E7. cbn [bind]. clear E7. eexists. split; [reflexivity|]. left. pose proof (pos_adj t K T0 a b Ab) as Pb. split.
             ++ unfold Inv. cbn [es_mh es_kind es_r es_a es_b es_cind es_ua es_Qw es_Uh es_bpts es_nextbpts es_ebpts].
                split; [exact Bb|]. split; [reflexivity|]. split; [reflexivity|]. split; [lia|]. split.
                { right. exists a. split; [exact Ab|]. split; [reflexivity|]. split; [reflexivity|]. split; [|exact Se2]. rewrite Ec2, Pb. pose proof (lbz_spec r') as [Lz1' Lz0']. unfold r' in *. lia. }
                split; [exact LQ2|]. split; [exact LU1|]. split; [exact L7|]. split; [exact Ln1|]. split; [exact Le2|]. split; [intros i Hi; apply HU1; lia|]. split.
                { intros ub k Hk. apply H7. lia. }
                { intros i Hi. destruct (HQ2 i ltac:(lia)) as [a' [B' [L' [Hp' E']]]]. exists a'. split; [exact B'|]. split; [lia|]. split; [exact Hp'|exact E']. }
             ++ cbn [es_b]. lia.
      + (* last span *)
        assert (b = len K - 1) as Eb by lia. destruct (run_last_one p K C P1 a b Ba Nr Eb) as [Ea Ek]. pose proof (ev_len_last p t K C T0) as Lv. rewrite <- Ea in Lv.
        assert (r' = -1) as Er by (unfold r'; lia). specialize (Rz0 ltac:(lia)).
        match goal with |- context [for_up 0 (ph + 1) ?bo ?s0] =>
          destruct (for_up_inv (fun j (s : list R) => len s = bufn + ph + 1 /\ forall k, 0 <= k < pos t K a + 1 + j -> vget s k = Ok (V k)) 0 (ph + 1) bo s0) as [Uh2 [E6 [L6 H6]]] end.
        * lia.
        * split; [exact LU1|]. intros k Hk. apply HU1. lia.
        * intros j s Hj [Ls Hs]. destruct (vset_spec s (pos t K a + 1 + j) (kf K b)) as [s2 [E2 [L2 [G2 O2]]]]; [lia|]. exists s2. split; [exact E2|]. split; [lia|].
          intros k Hk. destruct (Z.eq_dec k (pos t K a + 1 + j)) as [->|Ne].
          -- rewrite G2, Ek. f_equal. symmetry. apply (ev_one p t K C T0). rewrite Ea. lia.
          -- rewrite O2 by exact Ne. apply Hs. lia.
        * rewrite E6. cbn [bind]. clear E6. eexists. split; [reflexivity|]. right. unfold Fin. cbn [es_mh es_kind es_r es_a es_b es_cind es_ua es_Qw es_Uh es_bpts es_nextbpts es_ebpts].
          split; [exact Eb|]. split; [lia|]. split; [exact LQ2|]. split; [exact L6|]. split; [intros i Hi; apply H6; lia|]. split; [|lia].
          intros i Hi. destruct (HQ2 i ltac:(lia)) as [a' [B' [_ [Hp' E']]]]. exists a'. split; [exact B'|]. split; [exact Hp'|]. rewrite E'. do 3 f_equal. apply run_ext. intros k _.
          rewrite Ek. apply cut_low. apply (clamped_le1 ph). apply ev_clamped; assumption.
  Qed.
End Loop.
