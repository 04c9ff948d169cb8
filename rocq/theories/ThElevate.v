(** Degree elevation of curves on the reals. *)
From Coq Require Import Reals ZArith List Lra Lia Permutation FunctionalExtensionality.
From Verif Require Import Outcome Num ModelCore ModelAlgo ModelCurve SpecCore SpecBasis SpecCurve SpecBezier SpecElevate ThOutcome ThReal ThKnots ThMath ThSum ThVec ThSpline ThBasis ThCurve ThInsert
  ThRemove ThReverse ThPolar ThElevKnots ThElevPos ThElevForm ThElevCode ThElevRemove ThElevLoop.
Import ListNotations.
Open Scope Z_scope.

Lemma kf_In K j : 0 <= j < len K -> In (kf K j) K.
Proof. intros H. rewrite kf_at by exact H. rewrite at_znth. apply znth_In. exact H. Qed.
Lemma In_kf K x : In x K -> exists j, 0 <= j < len K /\ kf K j = x.
Proof. intros H. apply (In_znth 0%R) in H. destruct H as [j [Hj E]]. exists j. split; [exact Hj|]. rewrite kf_at by exact Hj. exact E. Qed.

Section Breaks.
  Variables (p : Z) (K : list R).
  Hypothesis C : clamped p K.
  Lemma adj_count a0 a : adj K a0 a -> count (kf K a) K = a - a0.
  Proof using C.
    intros [[R0 B0] [[R2 B2] [L E]]]. pose proof (clamped_mono _ _ C) as M.
    rewrite (run_sub K a0 (Z.to_nat (a - a0))) at 2 by (rewrite ?nn_of by lia; lia). rewrite !count_app.
    rewrite (count_zero _ (firstn _ K)), (count_zero _ (skipn _ K)).
    - rewrite (run_Z_const _ _ _ (kf K a)) by (intros k Hk; apply E; lia). rewrite count_repeat. destruct (Req_EM_T (kf K a) (kf K a)); [lia|congruence].
    - intros I. apply (In_znth 0%R) in I. destruct I as [q [Hq Eq]]. rewrite nn_of in * by lia. rewrite len_skipn in Hq. rewrite znth_skipn in Eq by lia.
      rewrite <- at_znth, <- kf_at in Eq by lia. pose proof (M (a + 1) (a0 + 1 + (a - a0) + q) ltac:(lia)). lra.
    - intros I. apply (In_znth 0%R) in I. destruct I as [q [Hq Eq]]. rewrite len_firstn in Hq. rewrite znth_firstn in Eq by lia.
      rewrite <- at_znth, <- kf_at in Eq by lia. pose proof (M q a0 ltac:(lia)). rewrite (E (a0 + 1)) in B0 by lia. lra.
  Qed.
  Lemma brk_unit a : brk K a -> p < a -> (0 < kf K a < 1)%R.
  Proof using C.
    intros [R B] H. pose proof (clamped_mono _ _ C) as M. pose proof (cl_first _ _ C) as F0. pose proof (cl_len _ _ C). pose proof (cl_degree _ _ C).
    rewrite <- kf_at in F0 by lia. pose proof (M (p + 1) a ltac:(lia)). pose proof (clamped_le1 _ _ C (a + 1)). lra.
  Qed.
  Lemma adj_unit a0 a : adj K a0 a -> (0 < kf K a < 1)%R.
  Proof using C. intros [B0 [B2 [L _]]]. apply brk_unit; [exact B2|]. pose proof (brk_range p K C a0 B0). lia. Qed.
  Lemma adj_consecutive a0 a : adj K a0 a -> consecutive K (kf K a0) (kf K a).
  Proof using C.
    intros [[R0 B0] [[R2 B2] [L E]]]. pose proof (clamped_mono _ _ C) as M. split; [apply kf_In; lia|]. split; [apply kf_In; lia|]. split.
    - rewrite (E (a0 + 1)) in B0 by lia. exact B0.
    - intros z I [Z1 Z2]. apply In_kf in I. destruct I as [j [Hj <-]]. destruct (Z_le_gt_dec j a0) as [H|H]; [pose proof (M j a0 H); lra|].
      destruct (Z_le_gt_dec j a) as [H'|H']; [rewrite E in Z2 by lia; lra|]. pose proof (M (a + 1) j ltac:(lia)). lra.
  Qed.
  Lemma brk_consecutive a : brk K a -> consecutive K (kf K a) (kf K (a + 1)).
  Proof using C.
    intros [R0 B0]. pose proof (clamped_mono _ _ C) as M. split; [apply kf_In; lia|]. split; [apply kf_In; lia|]. split; [exact B0|].
    intros z I [Z1 Z2]. apply In_kf in I. destruct I as [j [Hj <-]]. destruct (Z_le_gt_dec j a) as [H|H]; [pose proof (M j a H); lra|].
    pose proof (M (a + 1) j ltac:(lia)). lra.
  Qed.
  Lemma nodup_bound : len (nodup Req_EM_T K) <= len K - 2 * p.
  Proof using C.
    pose proof (cl_degree _ _ C) as P0. pose proof (cl_len _ _ C) as Lk.
    pose (L := firstn (Z.to_nat (len K - 2 * p)) (skipn (Z.to_nat p) K)).
    assert (len L = len K - 2 * p) as LL by (unfold L; rewrite len_firstn, len_skipn; lia).
    assert (forall j, p <= j < len K - p -> In (kf K j) L) as IL.
    { intros j Hj. replace (kf K j) with (znth 0%R L (j - p)); [apply znth_In; lia|]. unfold L. rewrite znth_firstn by lia. rewrite znth_skipn by lia.
      replace (p + (j - p)) with j by lia. rewrite kf_at by lia. reflexivity. }
    rewrite <- LL. unfold len. apply inj_le. apply NoDup_incl_length; [apply NoDup_nodup|]. intros x I. apply nodup_In in I. apply In_kf in I. destruct I as [j [Hj <-]].
    destruct (Z_lt_le_dec j p) as [H|H].
    - replace (kf K j) with (kf K p); [apply IL; lia|]. rewrite (kf_at K p), (kf_at K j) by lia. rewrite (cl_zero _ _ C p), (cl_zero _ _ C j) by lia. reflexivity.
    - destruct (Z_lt_le_dec j (len K - p)) as [H'|H']; [apply IL; lia|]. replace (kf K j) with (kf K (len K - p - 1)); [apply IL; lia|].
      rewrite (kf_at K (len K - p - 1)), (kf_at K j) by lia. rewrite (cl_one _ _ C (len K - p - 1)), (cl_one _ _ C j) by lia. reflexivity.
  Qed.
  Lemma ev_gains t : 0 <= t -> gains t K (EV t K).
  Proof using C.
    intros Ht. split; [apply (cl_sorted (p + t)); apply ev_clamped; assumption|]. split.
    - intros x I. unfold EV. rewrite ek_count by (try exact I; apply (cl_sorted _ _ C)). lia.
    - intros x N I. apply N. apply (ek_In (Z.to_nat t)). exact I.
  Qed.
  Lemma ev_length t : 0 <= t -> len (EV t K) = len K + t * (spans K + 1).
  Proof using C. intros Ht. unfold EV, spans. rewrite ek_len by (apply (cl_sorted _ _ C)). rewrite Z2Nat.id by exact Ht. f_equal. f_equal. lia. Qed.
End Breaks.

(** Hypotheses under which elevation works. *)
Definition elevatable (p t : Z) (K : list R) : Prop :=
  1 <= p /\ 1 <= t /\ p + t <= 29 /\ interior_multiplicity_le p K /\ spread K /\ gentle p t K /\
  len K - p - 1 + t * spans K <= 2 * (len K - p - 2 + t).

(** the new curve *)
Definition elevated (c d : curve R) (t : Z) : Prop :=
  Degree d = Degree c + t /\ Knots d = EV t (Knots c) /\ wf_curve d /\
  forall i, 0 <= i < len (ControlPoints d) -> exists a, brk (Knots c) a /\ i <= pos t (Knots c) a <= i + (Degree c + t) /\
    hp d i = FV (Knots c) (hp c) (Z.to_nat t) a (run (kf (Knots d)) i (Z.to_nat (Degree c + t))).

(** as [elevatable], whatever the pattern of multiplicities *)
Definition elevatable0 (p t : Z) (K : list R) : Prop :=
  1 <= p /\ 1 <= t /\ p + t <= 29 /\ interior_multiplicity_le p K /\ spread K /\
  len K - p - 1 + t * spans K <= 2 * (len K - p - 2 + t).
(** the main loop, from a start with buffers of [bufn] points *)
Lemma elevation_loop p t K pts P bufn bzm Q1 U1 bp nb eb : clamped p K -> 1 <= p -> 1 <= t ->
  len pts = len K - p - 1 -> (forall i, 0 <= i < len pts -> vget pts i = Ok (P i)) ->
  (forall j, brk K j -> ~ close (kf K j) (kf K (j + 1))) -> (forall a0 a, adj K a0 a -> a - a0 <= p) ->
  (forall i, P i = P 0) \/ (forall a1 a0 a, adj K a1 a0 -> adj K a0 a -> a - a0 <= a0 - a1 + 1 \/ p <= a - a0 + 2 * (a0 - a1 + t) + 2) ->
  len (EV t K) - (p + t) - 1 <= bufn -> (forall i j, 0 <= i <= p + t -> band p t i j -> get2 bzm i j = Ok (bz p t i j)) ->
  len Q1 = bufn -> vget Q1 0 = Ok (Some (P 0)) -> len U1 = bufn + (p + t) + 1 -> (forall j, 0 <= j < p + t + 1 -> vget U1 j = Ok 0%R) ->
  len bp = p + 1 -> (forall i, 0 <= i < p + 1 -> vget bp i = Ok (P i)) -> len nb = p - 1 -> len eb = p + t + 1 ->
  exists st, while_ (Z.to_nat (len K - 1)) (fun st => Ok (es_b st <? len K - 1)) (elevation_step K pts p t (len K - 1) bzm)
    (ES (p + t) (p + t + 1) (-1) p (p + 1) 1 (kf K 0) Q1 U1 bp nb eb) = Ok st /\ Fin p t K P bufn st.
Proof.
  intros C P1 T Lp HP Sep Mul Pat Buf Hz LQ1 VQ1 LU1 HU1 Lbp Hbp Lnb Leb.
  pose proof (cl_len _ _ C) as Lk. assert (0 <= t) as T0 by lia. assert (kf K 0 = 0%R) as Z0 by (rewrite kf_at by lia; apply (cl_zero _ _ C); lia).
  pose proof (brk_first p K C) as Bp. pose proof (pos_first p t K C T0) as Pp.
  match goal with |- context [while_ ?fu ?co ?bo ?s0] =>
    destruct (while_descend (Inv p t K P bufn) (Fin p t K P bufn) (fun s => len K - 1 - es_b s) co bo) with (fuel := fu) (s := s0) as [st [E8 F8]] end.
  { intros s I. pose proof I as I2. destruct I2 as [Ba [Eb _]]. pose proof (brk_range p K C _ Ba) as Rg. split; [lia|]. split; [f_equal; apply Z.ltb_lt; lia|].
    destruct (step_ok p t K pts P C P1 T Lp HP Sep Mul Pat bufn Buf bzm s Hz I) as [s' [Es H']]. exists s'. split; [exact Es|]. destruct H' as [[H1 H2]|H1]; [left; split; [exact H1|lia]|right; exact H1]. }
  { intros s F. destruct F as [Eb _]. rewrite Eb. rewrite Z.ltb_irrefl. reflexivity. }
  { unfold Inv. cbn [es_mh es_kind es_r es_a es_b es_cind es_ua es_Qw es_Uh es_bpts es_nextbpts es_ebpts]. split; [exact Bp|]. split; [reflexivity|].
    assert (kf K p = 0%R) as Zp by (rewrite kf_at by lia; apply (cl_zero _ _ C); lia). split; [congruence|]. split; [lia|].
    split; [left; split; [reflexivity|]; split; [reflexivity|]; split; [lia|reflexivity]|]. split; [lia|]. split; [lia|]. split; [lia|]. split; [lia|]. split; [lia|]. split.
    - intros i Hi. rewrite HU1 by lia. f_equal. symmetry. apply (ev_zero p t K C T0). lia.
    - split.
      + intros ub k Hk. rewrite Hbp by lia. f_equal. unfold G. rewrite Z.sub_0_r. cbn [Z.to_nat repeat app].
        rewrite <- (FV_dual p K P C p k Bp) by lia. f_equal. replace p with ((p - k) + k) at 1 by lia. rewrite run_Z_app by lia. replace (k + (p - k)) with p by lia. f_equal.
        apply run_Z_const. intros q Hq. rewrite Zp, kf_at by lia. apply (cl_zero _ _ C). lia.
      + intros i Hi. assert (i = 0) as -> by lia. exists p. split; [exact Bp|]. split; [lia|]. split; [lia|]. rewrite VQ1. do 2 f_equal.
        rewrite (run_Z_const (cut t K (kf K 0)) 0 (p + t) 0%R).
        2: { intros k Hk. unfold cut. rewrite (ev_zero p t K C T0) by lia. rewrite Z0. apply Rmin_left. lra. }
        rewrite <- (FV_dual p K P C p 0 Bp) by lia. rewrite (run_Z_const (kf K) 0 p 0%R) by (intros k Hk; rewrite kf_at by lia; apply (cl_zero _ _ C); lia).
        apply lin_ext. intros f Lf. rewrite !FV_lin by exact Lf. replace (Z.to_nat (p + t)) with (Z.to_nat p + Z.to_nat t)%nat by lia. rewrite elev_diag. reflexivity. }
  { cbn [es_b]. lia. }
  exists st. split; assumption.
Qed.
Lemma nurbs_elevation_gen c t : wf_curve c -> elevatable0 (Degree c) t (Knots c) -> (forall i, hp c i = hp c 0) \/ gentle (Degree c) t (Knots c) ->
  exists d, NurbsDegreeElevation (Knots c) (ControlPoints c) (Degree c) t = Ok (Degree d, Knots d, ControlPoints d) /\ elevated c d t.
Proof.
  intros W [P1 [T [Bnd [Im [Se Bf]]]]] Ge0. destruct W as [C Cn Wt]. set (K := Knots c) in *. set (p := Degree c) in *.
  pose proof (cl_len _ _ C) as Lk. assert (0 <= t) as T0 by lia.
  pose (P := hp c). pose (pts := map ToHomo (ControlPoints c)).
  assert (len pts = len K - p - 1) as Lp by (unfold pts; rewrite len_map; exact Cn).
  assert (forall i, 0 <= i < len pts -> vget pts i = Ok (P i)) as HP.
  { intros i Hi. unfold pts in *. rewrite len_map in Hi. unfold P, hp. apply vget_map_ok. apply vget_cp. exact Hi. }
  assert (forall i, (0 < w4 (P i))%R) as PW by (intros i; unfold P, hp; cbn [ToHomo w4]; apply (cp_weight c i Wt)).
  assert (forall j, brk K j -> ~ close (kf K j) (kf K (j + 1))) as Sep by (intros j Bj; apply Se; apply (brk_consecutive p K C); exact Bj).
  assert (forall a0 a, adj K a0 a -> a - a0 <= p) as Mul.
  { intros a0 a A. rewrite <- (adj_count p K C a0 a A). apply Im. apply (adj_unit p K C a0 a A). }
  assert ((forall i, P i = P 0) \/ forall a1 a0 a, adj K a1 a0 -> adj K a0 a -> a - a0 <= a0 - a1 + 1 \/ p <= a - a0 + 2 * (a0 - a1 + t) + 2) as Pat.
  { destruct Ge0 as [Fl|Ge]; [left; exact Fl|right]. intros a1 a0 a A1 A0. rewrite <- (adj_count p K C a0 a A0), <- (adj_count p K C a1 a0 A1). apply Ge.
    - apply (adj_consecutive p K C). exact A0.
    - apply (adj_unit p K C a1 a0 A1).
    - apply (adj_unit p K C a0 a A0). }
  pose (bufn := (len pts - 1 + t) * 2).
  assert (len (EV t K) - (p + t) - 1 <= bufn) as Buf by (rewrite (ev_length p K C t T0); unfold bufn; lia).
  pose proof (ev_clamped p t K C T0) as Cv. pose proof (cl_len _ _ Cv) as Lv.
  unfold NurbsDegreeElevation. destruct (Z.leb_spec 1 t); [|lia]. cbn [assert_ bind]. fold pts.
  destruct (bezalfs_ok p t ltac:(lia) T Bnd) as [bzm [Ez Hz]]. fold p. rewrite Ez. cbn [bind]. fold K.
  rewrite vget_kf by lia. cbn [bind]. replace ((len pts - 1 + t) * 2) with bufn by reflexivity.
  destruct (uninit_spec (vec4 R) bufn ltac:(unfold bufn; lia)) as [Q0 [E1 [LQ0 _]]]. rewrite E1. cbn [bind].
  rewrite HP by lia. cbn [bind]. destruct (uset_spec Q0 0 (P 0) ltac:(unfold bufn in *; lia)) as [Q1 [E2 [LQ1 [VQ1 _]]]]. rewrite E2. cbn [bind].
  destruct (vmake_spec (bufn + (p + t) + 1) (n0 : R) ltac:(unfold bufn in *; lia)) as [U0 [E3 [LU0 _]]]. rewrite E3. cbn [bind].
  assert (kf K 0 = 0%R) as Z0 by (rewrite kf_at by lia; apply (cl_zero _ _ C); lia).
  match goal with |- context [for_up 0 (p + t + 1) ?bo U0] =>
    destruct (for_up_inv (fun i (u : list R) => len u = bufn + (p + t) + 1 /\ forall j, 0 <= j < i -> vget u j = Ok 0%R) 0 (p + t + 1) bo U0) as [U1 [E4 [LU1 HU1]]] end.
  { lia. } { split; [exact LU0|]. intros; lia. }
  { intros i u Hi [Lu Hu]. rewrite Z0. destruct (vset_spec u i 0%R ltac:(unfold bufn in *; lia)) as [u' [E [L' [G' O']]]]. exists u'. split; [exact E|]. split; [lia|].
    intros j Hj. destruct (Z.eq_dec j i) as [->|Ne]; [exact G'|]. rewrite O' by exact Ne. apply Hu. lia. }
  rewrite E4. cbn [bind].
  destruct (tabulate_spec 0 (p + 1) (fun i => vget pts i) P ltac:(lia)) as [bp [E5 [Lbp Hbp]]].
  { intros i Hi. apply HP. lia. }
  rewrite E5. cbn [bind]. rewrite Z.sub_0_r in *.
  destruct (uninit_spec (vec4 R) (p - 1) ltac:(lia)) as [nb [E6 [Lnb _]]]. rewrite E6. cbn [bind].
  destruct (uninit_spec (vec4 R) (p + t + 1) ltac:(lia)) as [eb [E7 [Leb _]]]. rewrite E7. cbn [bind].
  replace (len pts - 1 + p + 1) with (len K - 1) by lia.
  pose proof (brk_first p K C) as Bp. pose proof (pos_first p t K C T0) as Pp.
  destruct (elevation_loop p t K pts P bufn bzm Q1 U1 bp nb eb) as [st [E8 F8]]; try assumption; try lia.
  rewrite E8. cbn [bind]. destruct F8 as [Eb [Emh [LQ [LU [HU [HQ _]]]]]]. rewrite Emh.
  set (N := len (EV t K) - 1 - (p + t) - 1 + 1).
  assert (vresize (es_Qw st) N None = Ok (firstn (Z.to_nat N) (es_Qw st))) as ->.
  { unfold vresize. destruct (Z.ltb_spec N 0); [unfold N in *; lia|]. replace (Z.to_nat (N - len (es_Qw st))) with 0%nat by (unfold N in *; lia). cbn [repeat]. rewrite app_nil_r. reflexivity. }
  cbn [bind].
  assert (vresize (es_Uh st) (len (EV t K) - 1 + 1) n0 = Ok (EV t K)) as ->.
  { unfold vresize. replace (len (EV t K) - 1 + 1) with (len (EV t K)) by lia. destruct (Z.ltb_spec (len (EV t K)) 0); [lia|]. f_equal.
    replace (Z.to_nat (len (EV t K) - len (es_Uh st))) with 0%nat by lia. cbn [repeat]. rewrite app_nil_r. apply vget_ext.
    - rewrite len_firstn. lia.
    - intros i Hi. rewrite len_firstn in Hi. rewrite vget_firstn by lia. rewrite HU by lia. symmetry. apply vget_kf. lia. }
  cbn [bind].
  pose (q := fun i => match vget (es_Qw st) i with Ok (Some x) => x | _ => v4zero end).
  assert (len (firstn (Z.to_nat N) (es_Qw st)) = N) as LN by (rewrite len_firstn; unfold N in *; lia).
  destruct (freeze_spec (firstn (Z.to_nat N) (es_Qw st)) q) as [Q [E9 [L9 H9]]].
  { intros i Hi. rewrite LN in Hi. rewrite vget_firstn by lia. destruct (HQ i ltac:(unfold N in *; lia)) as [a' [_ [_ E]]]. unfold q. rewrite E. reflexivity. }
  rewrite E9. cbn [bind]. rewrite LN in L9, H9.
  assert (forall i, 0 <= i < N -> exists a', brk K a' /\ i <= pos t K a' <= i + (p + t) /\ q i = FV K P (Z.to_nat t) a' (run (kf (EV t K)) i (Z.to_nat (p + t)))) as Hq.
  { intros i Hi. destruct (HQ i ltac:(unfold N in *; lia)) as [a' [B' [H' E]]]. exists a'. split; [exact B'|]. split; [exact H'|]. unfold q. rewrite E. reflexivity. }
  assert (forall i, 0 <= i < N -> (0 < w4 (q i))%R) as Wq.
  { intros i Hi. destruct (Hq i Hi) as [a' [B' [H' ->]]]. apply (FV_weight p t K P C T0); try assumption; [lia|unfold N in *; lia]. }
  rewrite (mapM_ok FromHomo fromh).
  2: { intros x I. apply (In_znth v4zero) in I. destruct I as [i [Hi Ex]]. rewrite L9 in Hi. pose proof (H9 i Hi) as Hv. apply (vget_inv v4zero) in Hv. destruct Hv as [_ Hv].
    apply FromHomo_ok. rewrite <- Ex, <- Hv. pose proof (Wq i Hi). lra. }
  cbn [bind]. rewrite KnotVector_make_ok.
  2: { split; [intros E; rewrite E in Lv; cbn in Lv; lia|]. split; [apply (cl_sorted _ _ Cv)|]. split; [rewrite (cl_zero _ _ Cv) by lia; lra|apply (cl_one _ _ Cv); lia]. }
  cbn [bind]. exists (Curve (p + t) (EV t K) (map fromh Q)). cbn [Degree Knots ControlPoints]. split; [reflexivity|].
  assert (forall i, 0 <= i < N -> hp (Curve (p + t) (EV t K) (map fromh Q)) i = q i) as Hhp.
  { intros i Hi. unfold hp. assert (vget (map fromh Q) i = Ok (fromh (q i))) as Ev by (apply vget_map_ok; apply H9; exact Hi).
    pose proof (vget_cp (Curve (p + t) (EV t K) (map fromh Q)) i) as Vc. cbn [ControlPoints] in Vc. rewrite Vc in Ev by (rewrite len_map; lia). assert (forall (u v : vec4 R), Ok u = Ok v -> u = v) as Oi by (intros u v Huv; congruence).
    apply Oi in Ev. rewrite Ev. apply ToHomo_fromh. pose proof (Wq i Hi). lra. }
  split; [reflexivity|]. split; [reflexivity|]. split.
  - split; cbn [Degree Knots ControlPoints].
    + exact Cv.
    + rewrite len_map. unfold N in *. lia.
    + apply Forall_forall. intros x I. apply in_map_iff in I. destruct I as [h [<- I]]. cbn [fromh w4]. apply (In_znth v4zero) in I. destruct I as [i [Hi Ex]]. rewrite L9 in Hi.
      pose proof (H9 i Hi) as Hv. apply (vget_inv v4zero) in Hv. destruct Hv as [_ Hv]. rewrite <- Ex, <- Hv. apply Wq. exact Hi.
  - intros i Hi. cbn [ControlPoints] in Hi. rewrite len_map, L9 in Hi. rewrite Hhp by exact Hi. apply Hq. exact Hi.
Qed.

Lemma nurbs_elevation c t : wf_curve c -> elevatable (Degree c) t (Knots c) ->
  exists d, NurbsDegreeElevation (Knots c) (ControlPoints c) (Degree c) t = Ok (Degree d, Knots d, ControlPoints d) /\ elevated c d t.
Proof. intros W [P1 [T [Bnd [Im [Se [Ge Bf]]]]]]. apply nurbs_elevation_gen; [exact W|repeat (split; try assumption)|right; exact Ge]. Qed.

Lemma elevated_hsum c d t f x : wf_curve c -> 0 <= t -> elevated c d t -> lin f -> (0 <= x <= 1)%R -> hsum d f x = hsum c f x.
Proof.
  intros W T0 [Ed [Ek [Wd H]]] Lf Hx. pose proof (wf_knots c W) as C. pose proof (cl_degree _ _ C) as P0.
  destruct (clamped_span _ _ x C Hx) as [a [_ [Ha Sa]]]. pose proof (cl_len _ _ C) as Lk.
  assert (brk (Knots c) a) as Ba by (split; [lia|apply (span_nonempty _ _ _ Sa)]).
  pose proof (ev_len_last _ t _ C T0) as Lv.
  pose proof (pos_le _ t _ C T0 (Degree c) a (brk_first _ _ C) Ba (proj1 Ha)) as L1. rewrite (pos_first _ t _ C T0) in L1.
  pose proof (pos_le _ t _ C T0 a (len (Knots c) - Degree c - 2) Ba (brk_last _ _ C) (proj2 Ha)) as L2.
  rewrite (hsum_bl c f a x W Ha Sa). rewrite (hsum_bl d f (pos t (Knots c) a) x Wd).
  - rewrite Ed, Ek. apply (FV_value (Degree c) t (Knots c) (hp c) C T0); try assumption.
    intros i Hi Hl. pose proof (wf_count d Wd) as Cd. rewrite Ed, Ek in Cd. destruct (H i ltac:(lia)) as [a' [B' [H' E]]]. exists a'. split; [exact B'|]. split; [exact H'|].
    rewrite E, Ek. reflexivity.
  - rewrite Ed, Ek. lia.
  - rewrite Ek. unfold span_at in *. rewrite (ev_at_pos t _ T0 a Ba), (ev_after_pos t _ T0 a Ba). exact Sa.
Qed.
Lemma elevated_same c d t : wf_curve c -> 0 <= t -> elevated c d t -> same_curve c d.
Proof. intros W T0 E. apply hsum_same. intros f x Lf Hx. apply (elevated_hsum c d t); assumption. Qed.
