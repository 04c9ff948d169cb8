(** DegreeAlgo.cpp:114-157 on the reals: removing the start of a span. *)
From Coq Require Import Reals ZArith List Lra Lia Permutation FunctionalExtensionality.
From Verif Require Import Outcome Num ModelCore ModelAlgo SpecCore SpecBasis ThOutcome ThReal ThKnots ThMath ThSum ThVec ThSpline ThBasis ThCurve ThInsert
  ThRemove ThReverse ThPolar ThElevKnots ThElevPos ThElevForm ThElevCode.
Import ListNotations.
Open Scope Z_scope.

Lemma tup5' {A B} (a b c a' b' c' : Z) (x x' : A) (y y' : B) : a = a' -> b = b' -> c = c' -> x = x' -> y = y' -> (a, b, c, x, y) = (a', b', c', x', y').
Proof. intros -> -> -> -> ->. reflexivity. Qed.

Section Remove.
  Variables (p t : Z) (K : list R) (P : Z -> vec4 R).
  Hypothesis C : clamped p K.
  Hypothesis T : 1 <= t.
  Local Notation ph := (p + t).
  Local Notation V := (kf (EV t K)).
  Local Notation F := (FV K P (Z.to_nat t)).
  Variables (a0 a : Z) (ub : R).
  Hypothesis A : adj K a0 a.
  Hypothesis Hub : (kf K a < ub)%R.
  Hypothesis Hmul : a - a0 <= p.
  Local Notation ua := (kf K a).
  Local Notation oldr := (p - (a - a0)).
  Local Notation base := (pos t K a - ph).
  Definition Qf (l c : Z) : vec4 R := F a (run V (base + l) (Z.to_nat (oldr - l)) ++ rpt ua (a - a0 + t + l - c) ++ rpt ub c).
  Definition Ef (l c : Z) : vec4 R := F a (rpt ua (ph - l - c) ++ run V (base + oldr - c) (Z.to_nat c) ++ rpt ub l).
  Lemma base_old : base + oldr = pos t K a0.
  Proof. pose proof (pos_adj t K ltac:(lia) a0 a A). lia. Qed.
  Lemma base_nonneg : 0 <= base.
  Proof.
    pose proof A as [_ [Ba _]]. pose proof (brk_range p K C a Ba). pose proof (pos_le p t K C ltac:(lia) p a (brk_first p K C) Ba ltac:(lia)) as L.
    rewrite (pos_first p t K C) in L by lia. lia.
  Qed.
  Lemma low_V i : i <= base + oldr -> (V i < ua)%R.
  Proof.
    intros H. rewrite base_old in H. pose proof A as [[A1 A2] [_ [L E]]]. pose proof (V_mono p t K C ltac:(lia) i (pos t K a0) H) as M.
    rewrite (ev_at_pos t K ltac:(lia) a0 (conj A1 A2)) in M. rewrite (E (a0 + 1)) in A2 by lia. lra.
  Qed.
  Lemma Qf_step l c : 1 <= l <= oldr -> 0 <= c < l ->
    Qf l (c + 1) = v4add (v4scale ((ub - V (base + l)) / (ua - V (base + l)))%R (Qf l c)) (v4scale (1 - (ub - V (base + l)) / (ua - V (base + l)))%R (Qf (l - 1) c)).
  Proof.
    intros Hl Hc. pose proof A as [_ [Ba [L0 _]]]. pose proof (cl_degree _ _ C) as P0. unfold Qf.
    set (ts := run V (base + l) (Z.to_nat (oldr - l)) ++ rpt ua (a - a0 + t + l - c - 1) ++ rpt ub c).
    assert (S (length ts) = Z.to_nat p + Z.to_nat t)%nat as Ls by (unfold ts; rewrite !app_length, !repeat_length, run_length; lia).
    rewrite (FV_perm p K P C (Z.to_nat t) a (run V (base + l) (Z.to_nat (oldr - l)) ++ rpt ua (a - a0 + t + l - (c + 1)) ++ rpt ub (c + 1)) (ub :: ts)); [| | |].
    - rewrite (FV_perm p K P C (Z.to_nat t) a (run V (base + l) (Z.to_nat (oldr - l)) ++ rpt ua (a - a0 + t + l - c) ++ rpt ub c) (ua :: ts)); [| | |].
      + replace (run V (base + (l - 1)) (Z.to_nat (oldr - (l - 1))) ++ rpt ua (a - a0 + t + (l - 1) - c) ++ rpt ub c) with (V (base + l) :: ts).
        * apply (FV_blend p K P C); [exact Ba|exact Ls|]. pose proof (low_V (base + l) ltac:(lia)). lra.
        * unfold ts. rewrite (run_Z_first V (base + (l - 1))) by lia. cbn [app]. f_equal; [f_equal; lia|]. f_equal; [f_equal; lia|]. f_equal. f_equal. lia.
      + exact Ba.
      + rewrite !app_length, !repeat_length, run_length. lia.
      + rewrite (rpt_S _ (a - a0 + t + l - c)) by lia. symmetry. unfold ts. apply (Permutation_middle (run V (base + l) (Z.to_nat (oldr - l)))).
    - exact Ba.
    - rewrite !app_length, !repeat_length, run_length. lia.
    - rewrite (rpt_S _ (c + 1)) by lia. replace (c + 1 - 1) with c by lia. replace (a - a0 + t + l - (c + 1)) with (a - a0 + t + l - c - 1) by lia.
      unfold ts. rewrite !app_assoc. symmetry. apply Permutation_middle.
  Qed.
  Lemma Ef_step l c : 0 <= l -> 0 <= c -> l + c + 1 <= ph ->
    Ef l (c + 1) = v4add (v4scale ((ub - V (base + oldr - c)) / (ub - ua))%R (Ef l c)) (v4scale (1 - (ub - V (base + oldr - c)) / (ub - ua))%R (Ef (l + 1) c)).
  Proof.
    intros Hl Hc Hp. pose proof A as [_ [Ba [L0 _]]]. pose proof (cl_degree _ _ C) as P0. unfold Ef.
    set (ts := rpt ua (ph - l - c - 1) ++ run V (base + oldr - c) (Z.to_nat c) ++ rpt ub l).
    assert (S (length ts) = Z.to_nat p + Z.to_nat t)%nat as Ls by (unfold ts; rewrite !app_length, !repeat_length, run_length; lia).
    replace ((ub - V (base + oldr - c)) / (ub - ua))%R with ((V (base + oldr - c)%Z - ub) / (ua - ub))%R by (field; lra).
    rewrite (FV_perm p K P C (Z.to_nat t) a (rpt ua (ph - l - (c + 1)) ++ run V (base + oldr - (c + 1)) (Z.to_nat (c + 1)) ++ rpt ub l) (V (base + oldr - c) :: ts)); [| | |].
    - rewrite (FV_perm p K P C (Z.to_nat t) a (rpt ua (ph - (l + 1) - c) ++ run V (base + oldr - c) (Z.to_nat c) ++ rpt ub (l + 1)) (ub :: ts)); [| | |].
      + replace (rpt ua (ph - l - c) ++ run V (base + oldr - c) (Z.to_nat c) ++ rpt ub l) with (ua :: ts) by (rewrite (rpt_S ua (ph - l - c)) by lia; reflexivity).
        apply (FV_blend p K P C); [exact Ba|exact Ls|lra].
      + exact Ba.
      + rewrite !app_length, !repeat_length, run_length. lia.
      + rewrite (rpt_S _ (l + 1)) by lia. replace (l + 1 - 1) with l by lia. replace (ph - (l + 1) - c) with (ph - l - c - 1) by lia.
        unfold ts. rewrite !app_assoc. symmetry. apply Permutation_middle.
    - exact Ba.
    - rewrite !app_length, !repeat_length, run_length. lia.
    - rewrite (run_Z_first V (base + oldr - (c + 1))) by lia. replace (base + oldr - (c + 1) + 1) with (base + oldr - c) by lia. replace (c + 1 - 1) with c by lia.
      replace (ph - l - (c + 1)) with (ph - l - c - 1) by lia. symmetry. unfold ts. apply Permutation_middle.
  Qed.
  (** [Qf] before and after, [Ef] after, as runs of the new knots *)
  Lemma cut_run b l n : 0 <= l <= oldr -> 0 <= n -> n <= ph -> (ua <= b)%R -> (forall i, pos t K a < i -> i <= base + l + n -> (b <= V i)%R) ->
    oldr <= l + n -> l + n <= ph + l ->
    run (cut t K b) (base + l) (Z.to_nat n) = run V (base + l) (Z.to_nat (oldr - l)) ++ rpt ua (Z.min (a - a0 + t) (l + n - oldr)) ++ rpt b (l + n - ph).
  Proof.
    intros Hl Hn Hph Hb Hh Ho Hlp. pose proof A as [_ [Ba [L0 _]]]. pose proof base_old as Bo. pose proof (pos_adj t K ltac:(lia) a0 a A) as Pa.
    replace n with ((oldr - l) + (l + n - oldr)) by lia. rewrite run_Z_app by lia. f_equal.
    { apply run_ext. intros k Hk. rewrite nn_of in Hk by lia. apply cut_low. pose proof (low_V k ltac:(lia)). lra. }
    replace (base + l + (oldr - l)) with (pos t K a0) by lia. replace (l + (oldr - l + (l + n - oldr)) - oldr) with (l + n - oldr) by lia.
    replace (l + (oldr - l + (l + n - oldr)) - ph) with (l + n - ph) by lia.
    assert (forall j, pos t K a0 < j <= pos t K a -> cut t K b j = ua) as Em.
    { intros j Hj. unfold cut. rewrite (ev_between t K ltac:(lia) a0 a j A Hj). apply Rmin_right. exact Hb. }
    destruct (Z_le_gt_dec (l + n) ph).
    - rewrite Z.min_r by lia. replace (Z.to_nat (l + n - ph)) with 0%nat by lia. cbn [repeat]. rewrite app_nil_r. apply run_Z_const. intros k Hk. apply Em. lia.
    - rewrite Z.min_l by lia. replace (l + n - oldr) with ((a - a0 + t) + (l + n - ph)) by lia. rewrite run_Z_app by lia. f_equal.
      + apply run_Z_const. intros k Hk. apply Em. lia.
      + apply run_Z_const. intros k Hk. apply cut_high. apply Hh; lia.
  Qed.
  Lemma Qf_start l : 0 <= l <= oldr -> F a (run (cut t K ua) (base + l) (Z.to_nat ph)) = Qf l 0.
  Proof.
    intros Hl. pose proof A as [_ [Ba [L0 _]]]. pose proof (cl_degree _ _ C). unfold Qf. f_equal. rewrite cut_run; try lia; try lra.
    - rewrite Z.min_l by lia. cbn [Z.to_nat repeat]. rewrite app_nil_r. rewrite <- rpt_app by lia. f_equal. f_equal. lia.
    - intros i Hi _. pose proof (V_mono p t K C ltac:(lia) (pos t K a) i ltac:(lia)) as M. rewrite (ev_at_pos t K ltac:(lia) a Ba) in M. exact M.
  Qed.
  Lemma Qf_end l : 0 <= l <= oldr -> (ub <= kf K (a + 1))%R -> F a (run (cut t K ub) (base + l) (Z.to_nat ph)) = Qf l l.
  Proof.
    intros Hl Hu. pose proof A as [_ [Ba [L0 _]]]. pose proof (cl_degree _ _ C). unfold Qf. f_equal. rewrite cut_run; try lia; try lra.
    - rewrite Z.min_l by lia. f_equal. f_equal; f_equal; f_equal; lia.
    - intros i Hi _. pose proof (V_mono p t K C ltac:(lia) (pos t K a + 1) i ltac:(lia)) as M. rewrite (ev_after_pos t K ltac:(lia) a Ba) in M. lra.
  Qed.
  Lemma Ef_end l : 0 <= l <= oldr -> Ef l (oldr - l) = Qf l l.
  Proof.
    intros Hl. pose proof A as [_ [Ba [L0 _]]]. pose proof (cl_degree _ _ C). unfold Ef, Qf. apply (FV_perm p K P C); [exact Ba|rewrite !app_length, !repeat_length, run_length; lia|].
    replace (base + oldr - (oldr - l)) with (base + l) by lia. replace (ph - l - (oldr - l)) with (a - a0 + t + l - l) by lia. rewrite !app_assoc. apply Permutation_app_tail.
    apply Permutation_app_comm.
  Qed.
  Lemma Ef_flat (Fl : forall i, P i = P 0) l c : 0 <= l -> 0 <= c -> l + c <= ph -> Ef l c = P 0.
  Proof.
    intros Hl Hc Hp. pose proof A as [_ [Ba _]]. pose proof (cl_degree _ _ C). unfold Ef. apply (FV_flat p K P C); [exact Ba|exact Fl|].
    rewrite !app_length, !repeat_length, run_length. lia.
  Qed.
  Variables (Uh : list R).
  Local Notation kind := (base + oldr + 1).
  Hypothesis HU : forall i, 0 <= i < kind -> vget Uh i = Ok (V i).
  Hypothesis Hr : 2 <= oldr.
  Variable lbz : Z.
  Hypothesis Hlbz : oldr + 1 <= 2 * lbz <= oldr + 2.
  Hypothesis Hbet : (forall i, P i = P 0) \/ forall k, 0 <= k -> k < a - a0 + t - 1 -> k <= oldr - 1 - lbz -> V (base + oldr - k) = V (base + oldr).
  Definition cl (tr l : Z) : Z := Z.max 0 (tr - oldr + l + 1).
  Definition cr (tr l : Z) : Z := Z.max 0 (tr - l + 1).
  (** state of the pass [tr] after [k] steps *)
  Definition rem_inv (Q0 : list (option (vec4 R))) (tr k : Z) (Qw eb : list (option (vec4 R))) : Prop :=
    len Qw = len Q0 /\ len eb = ph + 1 /\
    (forall i, i < base \/ base + lbz <= i -> vget Qw i = vget Q0 i) /\
    (forall l, 0 <= l < lbz -> vget Qw (base + l) = Ok (Some (Qf l (cl (if l <? oldr - tr + k then tr else tr - 1) l)))) /\
    (forall l, 1 <= l <= ph -> exists e, vget eb l = Ok (Some e)) /\
    (forall l, lbz <= l <= ph -> vget eb l = Ok (Some (Ef l (cr (if tr - k <? l then tr else tr - 1) l)))).
  Lemma pass_ok Q0 tr Qw eb kj0 : base + lbz <= len Q0 -> 1 <= tr < oldr -> rem_inv Q0 tr 0 Qw eb -> kj0 = tr ->
    exists i j kj Qw' eb', elevation_remove_pass ph kind lbz (base + lbz) oldr tr ua ub (ub - ua)%R ((ub - V (kind - 1)) / (ub - ua))%R Uh
        (kind - 1 - tr, kind - 1 + tr, kj0, Qw, eb) = Ok (i, j, kj, Qw', eb') /\ rem_inv Q0 (tr + 1) 0 Qw' eb'.
  Proof.
    intros LQ Htr I0 ->. unfold elevation_remove_pass. pose proof base_nonneg as Hb0. pose proof A as [_ [Ba [L0 _]]].
    pose (N := (tr + 1) / 2). assert (tr <= 2 * N <= tr + 1) as HN by (unfold N; pose proof (Z.div_mod (tr + 1) 2); pose proof (Z.mod_pos_bound (tr + 1) 2); lia).
    match goal with |- context [while_ ?fu ?co ?bo ?s0] =>
      destruct (while_steps (fun k (st : Z * Z * Z * list (option (vec4 R)) * list (option (vec4 R))) => exists Qw' eb',
        st = (kind - 1 - tr + k, kind - 1 + tr - k, tr - k, Qw', eb') /\ rem_inv Q0 tr k Qw' eb') N fu co bo s0) as [st' [Es [Qw' [eb' [-> I']]]]] end.
    - lia.
    - lia.
    - exists Qw, eb. split; [apply tup5'; try reflexivity; lia|exact I0].
    - intros k st Hk [Q1 [e1 [-> [L1 [L2 [O1 [GQ [Ge GE]]]]]]]]. split.
      + f_equal. rewrite Z.gtb_ltb. apply Z.ltb_lt. lia.
      + (* left *)
        set (l := oldr - tr + k).
        assert (exists Q2, (if kind - 1 - tr + k <? base + lbz then
            ui <- vget Uh (kind - 1 - tr + k) ;; alf <- ndiv (nsub ub ui) (nsub ua ui) ;; qi <- ugets Q1 (kind - 1 - tr + k) ;; qi1 <- ugets Q1 (kind - 1 - tr + k - 1) ;;
            usets Q1 (kind - 1 - tr + k) (v4add (v4scale alf qi) (v4scale (nsub n1 alf) qi1)) else Ok Q1) = Ok Q2 /\ len Q2 = len Q0 /\
          (forall i, i < base \/ base + lbz <= i -> vget Q2 i = vget Q0 i) /\
          (forall l, 0 <= l < lbz -> vget Q2 (base + l) = Ok (Some (Qf l (cl (if l <? oldr - tr + (k + 1) then tr else tr - 1) l))))) as [Q2 [E2 [L3 [O3 G3]]]].
        { replace (kind - 1 - tr + k) with (base + l) by (unfold l; lia). destruct (Z.ltb_spec (base + l) (base + lbz)) as [Hl|Hl].
          - rewrite HU by (unfold l in *; lia). cbn [bind]. pose proof (low_V (base + l) ltac:(unfold l in *; lia)) as Lv. norm_R. rewrite Rdivo_ok by lra. cbn [bind].
            rewrite (ugets_get _ _ _ (GQ l ltac:(unfold l in *; lia))). cbn [bind]. replace (base + l - 1) with (base + (l - 1)) by lia.
            rewrite (ugets_get _ _ _ (GQ (l - 1) ltac:(unfold l in *; lia))). cbn [bind].
            match goal with |- context [usets Q1 (base + l) ?x] => destruct (uset_spec Q1 (base + l) x ltac:(unfold l in *; lia)) as [Q2 [E2 [L3 [V3 O3]]]] end.
            exists Q2. split; [exact E2|]. split; [lia|]. split; [intros i Hi; rewrite O3 by (unfold l in *; lia); apply O1; exact Hi|].
            intros l' Hl'. destruct (Z.eq_dec l' l) as [->|Ne].
            + rewrite V3. f_equal. f_equal. destruct (Z.ltb_spec l (oldr - tr + (k + 1))); [|unfold l in *; lia]. destruct (Z.ltb_spec l (oldr - tr + k)); [unfold l in *; lia|].
              destruct (Z.ltb_spec (l - 1) (oldr - tr + k)); [|unfold l in *; lia].
              replace (cl tr l) with (k + 1) by (unfold cl, l; lia). replace (cl (tr - 1) l) with k by (unfold cl, l; lia). replace (cl tr (l - 1)) with k by (unfold cl, l; lia).
              rewrite Qf_step by (unfold l in *; lia). norm_R. reflexivity.
            + rewrite O3 by lia. rewrite GQ by exact Hl'. f_equal. f_equal. f_equal.
              destruct (Z.ltb_spec l' (oldr - tr + k)), (Z.ltb_spec l' (oldr - tr + (k + 1))); unfold l in *; try lia; reflexivity.
          - exists Q1. split; [reflexivity|]. split; [exact L1|]. split; [exact O1|]. intros l' Hl'. rewrite GQ by exact Hl'. f_equal. f_equal. f_equal.
            destruct (Z.ltb_spec l' (oldr - tr + k)), (Z.ltb_spec l' (oldr - tr + (k + 1))); unfold l in *; try lia; reflexivity. }
        rewrite E2. cbn [bind]. clear l.
        (* right *)
        set (l := tr - k). destruct (Z.leb_spec lbz (kind - 1 + tr - k)); [|lia].
        replace (kind - 1 + tr - k - tr) with (base + oldr - k) by lia.
        assert (exists g, (if base + oldr - k <=? kind - ph + oldr then uj <- vget Uh (base + oldr - k) ;; ndiv (nsub ub uj) (ub - ua)%R else Ok ((ub - V (kind - 1)) / (ub - ua))%R) = Ok g /\
          (lbz <= l -> v4add (v4scale g (Ef l k)) (v4scale (nsub n1 g) (Ef (l + 1) k)) = Ef l (k + 1))) as [g [Eg Vg]].
        { destruct (Z.leb_spec (base + oldr - k) (kind - ph + oldr)) as [Hk'|Hk'].
          - rewrite HU by lia. cbn [bind]. norm_R. rewrite Rdivo_ok by lra. eexists. split; [reflexivity|]. intros Hl. rewrite Ef_step by (unfold l in *; lia). norm_R. reflexivity.
          - eexists. split; [reflexivity|]. intros Hl. destruct Hbet as [Fl|Hb'].
            + rewrite !(Ef_flat Fl) by (unfold l in *; lia). apply lin_ext. intros f Lf. rewrite lin_add, !lin_scale by exact Lf. norm_R. ring.
            + replace (kind - 1) with (base + oldr) by lia. rewrite <- (Hb' k) by (unfold l in *; lia). rewrite Ef_step by (unfold l in *; lia). norm_R. reflexivity. }
        rewrite Eg. cbn [bind]. destruct (Ge l ltac:(unfold l; lia)) as [x1 X1]. destruct (Ge (l + 1) ltac:(unfold l; lia)) as [x2 X2].
        rewrite (ugets_get _ _ _ X1). cbn [bind]. rewrite (ugets_get _ _ _ X2). cbn [bind].
        match goal with |- context [usets e1 l ?x] => destruct (uset_spec e1 l x ltac:(unfold l; lia)) as [e2 [Ee [L4 [V4 O4]]]] end.
        rewrite Ee. cbn [bind]. eexists. split; [reflexivity|]. exists Q2, e2. split; [apply tup5'; try reflexivity; unfold l; lia|].
        split; [exact L3|]. split; [lia|]. split; [exact O3|]. split; [exact G3|]. split.
        * intros l' Hl'. destruct (Z.eq_dec l' l) as [->|Ne]; [eexists; exact V4|]. rewrite O4 by exact Ne. apply Ge. exact Hl'.
        * intros l' Hl'. destruct (Z.eq_dec l' l) as [->|Ne].
          -- rewrite V4. f_equal. f_equal. rewrite GE in X1, X2 by (unfold l in *; lia). assert (forall (u v : vec4 R), Ok (Some u) = Ok (Some v) -> v = u) as Oi by (intros u v Huv; congruence). rewrite (Oi _ _ X1), (Oi _ _ X2).
             destruct (Z.ltb_spec (tr - k) l); [unfold l in *; lia|]. destruct (Z.ltb_spec (tr - k) (l + 1)); [|unfold l in *; lia].
             destruct (Z.ltb_spec (tr - (k + 1)) l); [|unfold l in *; lia]. replace (cr (tr - 1) l) with k by (unfold cr, l; lia).
             replace (cr tr (l + 1)) with k by (unfold cr, l; lia). replace (cr tr l) with (k + 1) by (unfold cr, l; lia). apply Vg. lia.
          -- rewrite O4 by exact Ne. rewrite GE by exact Hl'. f_equal. f_equal. f_equal.
             destruct (Z.ltb_spec (tr - k) l'), (Z.ltb_spec (tr - (k + 1)) l'); unfold l in *; try lia; reflexivity.
    - intros st [Q1 [e1 [-> _]]]. f_equal. rewrite Z.gtb_ltb. apply Z.ltb_ge. lia.
    - do 5 eexists. split; [exact Es|]. destruct I' as [L1 [L2 [O1 [GQ [Ge GE]]]]]. split; [exact L1|]. split; [exact L2|]. split; [exact O1|]. split; [|split; [exact Ge|]].
      + intros l Hl. rewrite GQ by exact Hl. f_equal. f_equal. f_equal. unfold cl.
        destruct (Z.ltb_spec l (oldr - tr + N)), (Z.ltb_spec l (oldr - (tr + 1) + 0)); lia.
      + intros l Hl. rewrite GE by exact Hl. f_equal. f_equal. f_equal. unfold cr. destruct (Z.ltb_spec (tr - N) l), (Z.ltb_spec (tr + 1 - 0) l); lia.
  Qed.
  Lemma remove_ok Qw eb : base + lbz <= len Qw -> len eb = ph + 1 -> (forall l, 0 <= l < lbz -> vget Qw (base + l) = Ok (Some (Qf l 0))) ->
    (forall l, 1 <= l <= ph -> exists e, vget eb l = Ok (Some e)) -> (forall l, lbz <= l <= ph -> vget eb l = Ok (Some (Ef l 0))) ->
    exists Qw' eb', elevation_remove ph kind lbz (base + lbz) oldr ua ub Uh Qw eb = Ok (Qw', eb') /\ len Qw' = len Qw /\ len eb' = ph + 1 /\
      (forall i, i < base \/ base + lbz <= i -> vget Qw' i = vget Qw i) /\ (forall l, 0 <= l < lbz -> vget Qw' (base + l) = Ok (Some (Qf l l))) /\
      (forall l, 1 <= l <= ph -> exists e, vget eb' l = Ok (Some e)) /\ (forall l, lbz <= l <= ph -> vget eb' l = Ok (Some (Ef l (Z.max 0 (oldr - l))))).
  Proof.
    intros LQ Le HQ He HE. unfold elevation_remove. rewrite Z.gtb_ltb. destruct (Z.ltb_spec 1 oldr); [|lia]. pose proof base_nonneg as Hb0.
    rewrite HU by lia. cbn [bind]. norm_R. rewrite Rdivo_ok by lra. cbn [bind].
    match goal with |- context [for_up 1 oldr ?bo ?s0] =>
      destruct (for_up_inv (fun tr (st : Z * Z * list (option (vec4 R)) * list (option (vec4 R))) => exists Qw' eb', st = (kind - 1 - tr, kind - 1 + tr, Qw', eb') /\ rem_inv Qw tr 0 Qw' eb')
        1 oldr bo s0) as [st' [Es [Qw' [eb' [-> I']]]]] end.
    - lia.
    - exists Qw, eb. split; [f_equal; f_equal; f_equal; lia|]. split; [reflexivity|]. split; [exact Le|]. split; [reflexivity|]. split; [|split; [exact He|]].
      + intros l Hl. rewrite HQ by exact Hl. f_equal. f_equal. f_equal. unfold cl. destruct (Z.ltb_spec l (oldr - 1 + 0)); lia.
      + intros l Hl. rewrite HE by exact Hl. f_equal. f_equal. f_equal. unfold cr. destruct (Z.ltb_spec (1 - 0) l); lia.
    - intros tr st Htr [Q1 [e1 [-> I1]]]. destruct (pass_ok Qw tr Q1 e1 (kind - 1 + tr - kind + 1) LQ Htr I1 ltac:(lia)) as [i [j [kj [Q2 [e2 [E2 I2]]]]]].
      rewrite E2. cbn [bind]. eexists. split; [reflexivity|]. exists Q2, e2. split; [f_equal; f_equal; f_equal; lia|exact I2].
    - rewrite Es. cbn [bind]. exists Qw', eb'. split; [reflexivity|]. destruct I' as [L1 [L2 [O1 [GQ [Ge GE]]]]]. split; [exact L1|]. split; [exact L2|]. split; [exact O1|].
      split; [|split; [exact Ge|]].
      + intros l Hl. rewrite GQ by exact Hl. f_equal. f_equal. f_equal. unfold cl. destruct (Z.ltb_spec l (oldr - oldr + 0)); lia.
      + intros l Hl. rewrite GE by exact Hl. f_equal. f_equal. f_equal. unfold cr. destruct (Z.ltb_spec (oldr - 0) l); lia.
  Qed.
End Remove.
