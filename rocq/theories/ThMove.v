(** Affine maps and weight scaling commute with every operation that does not measure lengths (C108). *)
From Coq Require Import Reals ZArith List Lia Lra Bool.
From Verif Require Import Outcome Num ModelCore ModelBasis ModelAlgo ModelCurve ModelSurface SpecCore SpecCurve SpecMeta SpecMove ThOutcome ThVec ThMath ThSo ThSoGen.
Import ListNotations.
Open Scope Z_scope.

Lemma so_bind_ok {A B A' B'} (Q : A -> B -> Prop) (R : A' -> B' -> Prop) m m' f f' :
  so Q m m' -> (forall a b, m = Ok a -> m' = Ok b -> Q a b -> so R (f a) (f' b)) -> so R (bind m f) (bind m' f').
Proof. destruct m, m'; cbn; intros Hm Hf; try contradiction; auto. Qed.
Lemma Binomial_self n b : 0 <= n -> Binomial n n = Ok b -> b = 1.
Proof.
  intros Hn E. assert (choose (Z.to_nat n) (Z.to_nat n) = 1) as C.
  { induction (Z.to_nat n) as [|k IH]; [reflexivity|]. change (choose k k + choose k (S k) = 1). rewrite IH, choose_zero by lia. reflexivity. }
  unfold Binomial in E. rewrite Z.gtb_ltb, Z.ltb_irrefl in E.
  assert (so (fun r r' : Z => r = choose (Z.to_nat n) (Z.to_nat (Z.max 1 (n + 1) - 1)) /\ r' = r) (Ok b) (Ok b)) as S.
  - rewrite <- E. apply (so_for_at (fun i r r' => r = choose (Z.to_nat n) (Z.to_nat (i - 1)) /\ r' = r)).
    + change (Z.to_nat (1 - 1)) with O. rewrite choose_0_r. auto.
    + intros i s s' Hi [-> ->]. eapply so_bind_ok; [apply so_refl|]. intros f ? Ef _ <-. unfold int_ in Ef. destruct (fits_int (n - i + 1)); [|discriminate]. injection Ef as <-.
      unfold int_. destruct (fits_int _); cbn [bind]; [|reflexivity]. cbn. split; [|reflexivity]. set (j := Z.to_nat (i - 1)). assert (i = Z.of_nat (S j)) as Ei by lia.
      pose proof (choose_step (Z.to_nat n) j) as St. replace (Z.to_nat (i + 1 - 1)) with (S j) by lia.
      replace (choose (Z.to_nat n) j * (n - i + 1)) with (choose (Z.to_nat n) (S j) * i) by (rewrite Ei at 1; rewrite Z.mul_comm, St; rewrite Z.mul_comm; f_equal; lia).
      apply Z.quot_mul. lia.
  - cbn in S. destruct S as [S _]. rewrite S. replace (Z.max 1 (n + 1) - 1) with n by lia. exact C.
Qed.

Section Move.
  Variables (m : mat3 R) (b : vec3 R) (k : R).
  Hypothesis K : (k <> 0)%R.
  Let mp := moved_point m b k.
  Let mv := fun p q => q = affine3 m b p.
  Definition hom (h h' : vec4 R) : Prop := (w4 h' = k * w4 h)%R /\
    let q := mat_apply m (head3 h) in
    (x4 h' = k * (x3 q + w4 h * x3 b) /\ y4 h' = k * (y3 q + w4 h * y3 b) /\ z4 h' = k * (z3 q + w4 h * z3 b))%R.
  Local Ltac alg := unfold hom, mp, moved_point, mv, affine3, mat_apply; cbn [w4 x4 y4 z4 x3 y3 z3 head3 v4add v4sub v4scale v4zero ToHomo set_head3 v3sub v3scale nadd nsub nmul n0 n1 Num_R];
    intros; repeat match goal with H : _ /\ _ |- _ => destruct H end; repeat split.
  Lemma hom_zero : hom v4zero v4zero.
  Proof. alg; ring. Qed.
  Lemma hom_add p q p' q' : hom p p' -> hom q q' -> hom (v4add p q) (v4add p' q').
  Proof. alg; repeat match goal with H : ?a = _ |- context[?a] => rewrite H; clear H end; ring. Qed.
  Lemma hom_scale s p p' : hom p p' -> hom (v4scale s p) (v4scale s p').
  Proof. alg; repeat match goal with H : ?a = _ |- context[?a] => rewrite H; clear H end; ring. Qed.
  Lemma hom_homo p p' : mp p p' -> hom (ToHomo p) (ToHomo p').
  Proof.
    intros [E1 E2]. unfold hom, mat_apply. cbn [ToHomo w4 x4 y4 z4 x3 y3 z3 head3 nmul Num_R]. rewrite E1. split; [reflexivity|]. destruct (Req_dec (w4 p) 0) as [Zw|N].
    - rewrite Zw. repeat split; ring.
    - specialize (E2 N). unfold affine3, mat_apply in E2. cbn [x3 y3 z3] in E2. injection E2 as Ex Ey Ez. rewrite Ex, Ey, Ez. repeat split; ring.
  Qed.
  Lemma hom_point p p' : hom p p' -> so mv (v3div (head3 p) (w4 p)) (v3div (head3 p') (w4 p')).
  Proof.
    intros [E1 [E2 [E3 E4]]]. unfold v3div. cbn [head3 x3 y3 z3 ndiv Num_R]. destruct (Req_EM_T (w4 p) 0) as [Zw|N].
    - assert (w4 p' = 0)%R as Z' by (rewrite E1, Zw; ring). destruct (Req_EM_T (w4 p') 0); [exact I|contradiction].
    - assert (w4 p' <> 0)%R as N' by (rewrite E1; apply Rmult_integral_contrapositive_currified; assumption). destruct (Req_EM_T (w4 p') 0); [contradiction|].
      cbn. unfold mv, affine3, mat_apply. cbn [x3 y3 z3]. unfold mat_apply in *. cbn [x3 y3 z3 head3 x4 y4 z4] in *. rewrite E1, E2, E3, E4. f_equal; field; auto.
  Qed.
  Lemma hom_from p p' : hom p p' -> so mp (FromHomo p) (FromHomo p').
  Proof.
    intros Hp. unfold FromHomo. eapply so_bind; [apply hom_point; exact Hp|]. intros h h' E. split; [apply Hp|]. intros _. cbn [set_head3 x4 y4 z4 w4].
    destruct h as [hx hy hz], h' as [hx' hy' hz']. exact E.
  Qed.
  Lemma mp_zero : mp v4zero v4zero.
  Proof. split; [cbn; ring|]. cbn. intros N. destruct (N eq_refl). Qed.

  Local Ltac all1 := first [exact hom_zero|exact hom_add|exact hom_scale|exact hom_homo|exact hom_from|exact hom_point|exact mp_zero].
  Lemma move_Evaluate c d x : curve_by mp c d -> so mv (Curve_Evaluate c x) (Curve_Evaluate d x).
  Proof. apply (so_Curve_Evaluate hom mp mv); all1. Qed.
  Lemma move_Surface_Evaluate s t u v : surface_by mp s t -> so mv (Surface_Evaluate s u v) (Surface_Evaluate t u v).
  Proof. apply (so_Surface_Evaluate hom mp mv); all1. Qed.
  Lemma move_InsertKnot c d u : curve_by mp c d -> so (curve_by mp) (Curve_InsertKnot c u) (Curve_InsertKnot d u).
  Proof. apply (so_InsertKnot hom mp); all1. Qed.
  Lemma move_InsertKnot_list c d us : curve_by mp c d -> so (curve_by mp) (Curve_InsertKnot_list c us) (Curve_InsertKnot_list d us).
  Proof. apply (so_InsertKnot_list hom mp); all1. Qed.
  Lemma move_InsertKnot_times c d u n : curve_by mp c d -> so (curve_by mp) (Curve_InsertKnot_times c u n) (Curve_InsertKnot_times d u n).
  Proof. apply (so_InsertKnot_times hom mp); all1. Qed.
  Lemma move_ElevateDegree c d t : curve_by mp c d -> so (curve_by mp) (Curve_ElevateDegree c t) (Curve_ElevateDegree d t).
  Proof. apply (so_ElevateDegree hom mp); all1. Qed.
  Lemma move_ExtractBezier c d : curve_by mp c d -> so (Forall2 (curve_by mp)) (Curve_ExtractBezier c) (Curve_ExtractBezier d).
  Proof. apply (so_ExtractBezier hom mp); all1. Qed.
  Lemma move_InsertKnotU j j' s t u : mp j j' -> surface_by mp s t -> so (surface_by mp) (Surface_InsertKnotU j s u) (Surface_InsertKnotU j' t u).
  Proof. apply (so_InsertKnotU hom mp); all1. Qed.
  Lemma move_InsertKnotV s t u : surface_by mp s t -> so (surface_by mp) (Surface_InsertKnotV s u) (Surface_InsertKnotV t u).
  Proof. apply (so_InsertKnotV hom mp); all1. Qed.
  Lemma move_InsertKnotU_times j j' s t u n : mp j j' -> surface_by mp s t -> so (surface_by mp) (Surface_InsertKnotU_times j s u n) (Surface_InsertKnotU_times j' t u n).
  Proof. apply (so_InsertKnotU_times hom mp); all1. Qed.
  Lemma move_InsertKnotV_times s t u n : surface_by mp s t -> so (surface_by mp) (Surface_InsertKnotV_times s u n) (Surface_InsertKnotV_times t u n).
  Proof. apply (so_InsertKnotV_times hom mp); all1. Qed.
  Lemma move_ElevateDegreeU s t n : surface_by mp s t -> so (surface_by mp) (Surface_ElevateDegreeU s n) (Surface_ElevateDegreeU t n).
  Proof. apply (so_ElevateDegreeU hom mp); all1. Qed.
  Lemma move_ElevateDegreeV s t n : surface_by mp s t -> so (surface_by mp) (Surface_ElevateDegreeV s n) (Surface_ElevateDegreeV t n).
  Proof. apply (so_ElevateDegreeV hom mp); all1. Qed.

  (** ** Derivatives *)
  (** a vector that still carries [c] times the translation *)
  Definition car (c : R) (A A' : vec3 R) : Prop := let q := mat_apply m A in
    (x3 A' = k * (x3 q + c * x3 b) /\ y3 A' = k * (y3 q + c * y3 b) /\ z3 A' = k * (z3 q + c * z3 b))%R.
  Lemma car_eq c c' A A' : c = c' -> car c A A' -> car c' A A'.
  Proof. intros ->. auto. Qed.
  Lemma car_head h h' : hom h h' -> car (w4 h) (head3 h) (head3 h').
  Proof. intros [_ E]. exact E. Qed.
  Lemma car_step (first : bool) (n : Z) c w w' A A' r r' : car c A A' -> w' = (k * w)%R -> moved_derivative m b first r r' ->
    car (if first then (c - IZR n * w)%R else c) (v3sub A (v3scale (nmul (nofZ n) w) r)) (v3sub A' (v3scale (nmul (nofZ n) w') r')).
  Proof.
    intros [E1 [E2 E3]] -> Er. unfold moved_derivative in Er. destruct first; rewrite Er; unfold car, affine3, mat_apply in *;
    cbn [x3 y3 z3 v3sub v3scale nmul nsub nofZ Num_R] in *; rewrite E1, E2, E3; repeat split; ring.
  Qed.
  Lemma car_div (first : bool) c w A A' : car c A A' -> c = (if first then w else 0%R) -> so (moved_derivative m b first) (v3div A w) (v3div A' (k * w)%R).
  Proof.
    intros [E1 [E2 E3]] Ec. unfold v3div. cbn [ndiv Num_R]. destruct (Req_EM_T w 0) as [Zw|N].
    - assert (k * w = 0)%R as Z' by (rewrite Zw; ring). destruct (Req_EM_T (k * w) 0); [exact I|contradiction].
    - assert (k * w <> 0)%R as N' by (apply Rmult_integral_contrapositive_currified; assumption). destruct (Req_EM_T (k * w) 0); [contradiction|].
      cbn. unfold moved_derivative, affine3, mat_apply in *. cbn [x3 y3 z3] in *. rewrite E1, E2, E3, Ec. destruct first; f_equal; field; auto.
  Qed.
  (** all entries related, except the first one while [on] is false *)
  Definition ents (on : bool) (l l' : list (vec3 R)) : Prop :=
    len l = len l' /\ forall i p q, on = true \/ i <> 0 -> vget l i = Ok p -> vget l' i = Ok q -> moved_derivative m b (i =? 0) p q.
  Lemma ents_start n : so (fun l l' => ents false l l' /\ len l = n) (vmake n v3zero) (vmake n v3zero).
  Proof.
    unfold vmake. destruct (Z.ltb_spec n 0); [reflexivity|]. split; [|unfold len; rewrite repeat_length; lia]. split; [reflexivity|]. intros i p q [O|N] E1 E2; [discriminate|].
    assert (0 <= i < n) as Hi by (apply vget_range in E1; unfold len in E1; rewrite repeat_length in E1; lia).
    rewrite vget_repeat in E1, E2 by exact Hi. injection E1 as <-. injection E2 as <-. unfold moved_derivative. destruct (Z.eqb_spec i 0) as [|_]; [contradiction|].
    unfold mat_apply, v3zero. cbn [x3 y3 z3 n0 Num_R]. f_equal; ring.
  Qed.
  Lemma ents_get on l l' i : ents on l l' -> on = true \/ i <> 0 -> so (moved_derivative m b (i =? 0)) (vget l i) (vget l' i).
  Proof.
    intros [L E] O. destruct (Z_lt_dec i 0); [|destruct (Z_lt_dec i (len l))].
    - rewrite !vget_oob by lia. reflexivity.
    - destruct (vget_ex l i ltac:(lia)) as [p Ep], (vget_ex l' i ltac:(lia)) as [q Eq]. pose proof (E i p q O Ep Eq) as D. rewrite Ep, Eq. exact D.
    - rewrite !vget_oob by lia. reflexivity.
  Qed.
  Lemma ents_set on l l' i p q : ents on l l' -> moved_derivative m b (i =? 0) p q -> so (ents (on || (i =? 0))) (vset l i p) (vset l' i q).
  Proof.
    intros [L E] D. destruct (Z_lt_dec i 0); [rewrite !vset_oob by lia; reflexivity|]. destruct (Z_lt_dec i (len l)); [|rewrite !vset_oob by lia; reflexivity].
    destruct (vset_spec l i p ltac:(lia)) as [r [-> [Lr [G1 G2]]]], (vset_spec l' i q ltac:(lia)) as [r' [-> [Lr' [G1' G2']]]]. split; [lia|]. intros j x y O Ex Ey.
    destruct (Z.eq_dec j i) as [->|N]; [rewrite G1 in Ex; rewrite G1' in Ey; injection Ex as <-; injection Ey as <-; exact D|].
    rewrite G2 in Ex by auto. rewrite G2' in Ey by auto. apply (E j x y); [|exact Ex|exact Ey]. destruct O as [O|O]; [|right; exact O]. destruct on; [left; reflexivity|].
    right. cbn in O. apply Z.eqb_eq in O. lia.
  Qed.
  Lemma move_EvaluateAll c d x n : curve_by mp c d -> so (moved_derivatives m b) (Curve_EvaluateAll c x n) (Curve_EvaluateAll d x n).
  Proof.
    intros R. unfold Curve_EvaluateAll. eapply so_bind; [apply (so_Curve_Homogeneous hom mp); [all1..|exact R]|]. intros hs hs' Fh.
    eapply so_bind; [apply ents_start|]. intros r r' [Er Lr]. eapply so_bind_ok; [apply (so_vget hom); exact Fh|]. intros h h' Gh Gh' Hh. cbv zeta. pose proof Hh as [Ew _]. rewrite Ew.
    destruct (Z_lt_dec 0 (n + 1)) as [P|P].
    2: { rewrite !for_up_empty by lia. split; [apply Er|]. intros i p q E1 E2. apply vget_range in E1. lia. }
    eapply so_weak; [|apply (so_for_at (fun i => ents (0 <? i)) 0 (n + 1)); [exact Er|]].
    - intros a a' [La Ea]. split; [exact La|]. intros i p q. apply Ea. left. apply Z.ltb_lt. lia.
    - clear r r' Er Lr. intros i r r' Hi Er. eapply so_bind_ok; [apply (so_vget hom); exact Fh|]. intros g g' Gg Gg' Hg.
      eapply so_bind; [apply (so_for_at (fun j => car (if (0 <? i) && (i <? j) then 0%R else w4 g)) 1 (i + 1))|].
      + replace (i <? 1) with (i =? 0) by (destruct (Z.eqb_spec i 0), (Z.ltb_spec i 1); try reflexivity; lia).
        destruct (Z.ltb_spec 0 i), (Z.eqb_spec i 0); cbn [andb]; try lia; apply car_head; exact Hg.
      + intros j A A' Hj HA. eapply so_bind_ok; [apply (so_vget hom); exact Fh|]. intros f f' Gf Gf' [Ef _]. eapply so_bind_ok; [apply so_refl|]. intros bin ? Eb _ <-.
        eapply so_bind; [apply (ents_get (0 <? i)); [exact Er|left; apply Z.ltb_lt; lia]|]. intros y y' Dy.
        pose proof (car_step _ bin _ _ _ _ _ _ _ HA Ef Dy) as Cs. apply so_ok. refine (car_eq _ _ _ _ _ Cs).
        destruct (Z.ltb_spec 0 i); [|lia]. destruct (Z.ltb_spec i j); [lia|]. cbn [andb]. destruct (Z.eqb_spec (i - j) 0), (Z.ltb_spec i (j + 1)); try lia; [|reflexivity].
        assert (j = i) as -> by lia. apply Binomial_self in Eb; [|lia]. subst bin. assert (f = g) as -> by congruence. ring.
      + intros A A' HA. replace (Z.max 1 (i + 1)) with (i + 1) in HA by lia. replace (i <? i + 1) with true in HA by (symmetry; apply Z.ltb_lt; lia). rewrite andb_true_r in HA.
        eapply so_bind; [eapply (car_div (i =? 0)); [exact HA|]|].
        * destruct (Z.ltb_spec 0 i), (Z.eqb_spec i 0); try lia; [reflexivity|]. subst i. congruence.
        * intros q q' Dq. replace (0 <? i + 1) with ((0 <? i) || (i =? 0)); [apply ents_set; assumption|].
          destruct (Z.ltb_spec 0 i), (Z.eqb_spec i 0), (Z.ltb_spec 0 (i + 1)); try reflexivity; lia.
  Qed.
  Lemma move_Derivative c d x n : curve_by mp c d -> so (moved_derivative m b (n =? 0)) (Curve_EvaluateDerivative c x n) (Curve_EvaluateDerivative d x n).
  Proof.
    intros R. unfold Curve_EvaluateDerivative. eapply so_bind; [apply move_EvaluateAll; exact R|]. intros l l' [L E]. apply (ents_get true); [|left; reflexivity].
    split; [exact L|]. intros i p q _. apply E.
  Qed.
  (** grids of derivatives, by the position in memory *)
  Definition gents (n1 n2 : Z) (on : bool) (g g' : grid (vec3 R)) : Prop :=
    UCount g = n1 /\ UCount g' = n1 /\ VCount g = n2 /\ VCount g' = n2 /\ ents on (Values g) (Values g').
  Lemma gents_get n1 n2 on g g' i j : 0 <= i < n1 -> 0 <= j -> gents n1 n2 on g g' -> on = true \/ (i, j) <> (0, 0) ->
    so (moved_derivative m b ((i =? 0) && (j =? 0))) (Grid_Get g i j) (Grid_Get g' i j).
  Proof.
    intros Hi Hj [E1 [E2 [E3 [E4 E]]]] O. unfold Grid_Get. rewrite E1, E2, E3, E4. apply so_same. intros _.
    replace ((i =? 0) && (j =? 0)) with (j * n1 + i =? 0).
    - apply (ents_get on); [exact E|]. destruct O as [O|O]; [left; exact O|right]. intros Z0. apply O. assert (0 <= j * n1) by (apply Z.mul_nonneg_nonneg; lia). f_equal; nia.
    - assert (0 <= j * n1) by (apply Z.mul_nonneg_nonneg; lia). destruct (Z.eqb_spec (j * n1 + i) 0), (Z.eqb_spec i 0), (Z.eqb_spec j 0); cbn [andb]; try reflexivity; try lia; nia.
  Qed.
  Lemma gents_set n1 n2 on g g' i j p q : 0 <= i < n1 -> 0 <= j -> gents n1 n2 on g g' -> moved_derivative m b ((i =? 0) && (j =? 0)) p q ->
    so (gents n1 n2 (on || ((i =? 0) && (j =? 0)))) (Grid_Set g i j p) (Grid_Set g' i j q).
  Proof.
    intros Hi Hj [E1 [E2 [E3 [E4 E]]]] D. unfold Grid_Set. rewrite E1, E2, E3, E4. apply so_same. intros _.
    assert (((i =? 0) && (j =? 0)) = (j * n1 + i =? 0)) as B.
    { assert (0 <= j * n1) by (apply Z.mul_nonneg_nonneg; lia). destruct (Z.eqb_spec (j * n1 + i) 0), (Z.eqb_spec i 0), (Z.eqb_spec j 0); cbn [andb]; try reflexivity; try lia; nia. }
    rewrite B in *. eapply so_bind; [apply ents_set; eassumption|]. intros l l' El. repeat split; apply El || reflexivity.
  Qed.
  Lemma move_Surface_EvaluateAll s t u v n1 n2 : surface_by mp s t -> so (moved_grid m b) (Surface_EvaluateAll s u v n1 n2) (Surface_EvaluateAll t u v n1 n2).
  Proof.
    intros R. unfold Surface_EvaluateAll. eapply so_bind; [apply (so_Surface_Homogeneous hom mp); [all1..|exact R]|]. intros hs hs' Gh.
    eapply (so_bind (fun g g' => gents (n1 + 1) (n2 + 1) false g g' /\ len (Values g) = (n1 + 1) * (n2 + 1))).
    { unfold Grid_make. eapply so_bind_ok; [apply so_refl|]. intros n ? En _ <-. eapply so_bind; [apply ents_start|]. intros l l' [El Ll]. split.
      - repeat split; apply El || reflexivity.
      - cbn [Values]. unfold int_ in En. destruct (fits_int _); [|discriminate]. injection En as <-. exact Ll. }
    intros r r' [Er Lr]. eapply so_bind_ok; [apply (so_Grid_Get hom); exact Gh|]. intros h h' G0 G0' Hh. cbv zeta. pose proof Hh as [Ew _]. rewrite Ew.
    destruct (Z_lt_dec 0 (n1 + 1)) as [P1|P1].
    2: { rewrite !for_up_empty by lia. destruct Er as [E1 [E2 [E3 [E4 E]]]]. split; [congruence|]. split; [congruence|]. split; [apply E|]. intros i j p q Hi Hj Ep Eq. unfold Grid_Get in Ep.
         destruct (Z.ltb_spec i (UCount r)); [lia|]. discriminate. }
    destruct (Z_lt_dec 0 (n2 + 1)) as [P2|P2].
    2: { eapply so_weak; [|apply (so_for (gents (n1 + 1) (n2 + 1) false)); [exact Er|]].
         - intros g g' [E1 [E2 [E3 [E4 E]]]]. split; [congruence|]. split; [congruence|]. split; [apply E|]. intros i j p q Hi Hj Ep Eq. unfold Grid_Get in Ep.
           destruct (Z.ltb_spec j (VCount g)); [lia|]. rewrite andb_false_r in Ep. discriminate.
         - intros i g g' Eg. rewrite !for_up_empty by lia. exact Eg. }
    eapply so_weak; [|apply (so_for_at (fun i => gents (n1 + 1) (n2 + 1) (0 <? i)) 0 (n1 + 1)); [exact Er|]].
    { intros g g' Eg. pose proof Eg as [E1 [E2 [E3 [E4 E]]]]. split; [congruence|]. split; [congruence|]. split; [apply E|]. intros i j p q Hi Hj Ep Eq.
      assert (i < n1 + 1) as Li by (unfold Grid_Get in Ep; rewrite E1 in Ep; destruct (Z.ltb_spec i (n1 + 1)); [assumption|discriminate]).
      pose proof (gents_get (n1 + 1) (n2 + 1) _ g g' i j ltac:(lia) Hj Eg ltac:(left; apply Z.ltb_lt; lia)) as D. rewrite Ep, Eq in D. exact D. }
    clear r r' Er Lr. intros i r r' Hi Er.
    eapply so_weak; [|apply (so_for_at (fun j => gents (n1 + 1) (n2 + 1) ((0 <? i) || (0 <? j))) 0 (n2 + 1)); [rewrite orb_false_r; exact Er|]].
    { intros g g'. replace (Z.max 0 (n2 + 1)) with (n2 + 1) by lia. replace (0 <? n2 + 1) with true by (symmetry; apply Z.ltb_lt; lia). replace (0 <? i + 1) with true by (symmetry; apply Z.ltb_lt; lia).
      rewrite orb_true_r. auto. }
    clear r r' Er. intros j r r' Hj Er. eapply so_bind_ok; [apply (so_Grid_Get hom); exact Gh|]. intros g g' Gg Gg' Hg.
    (* what is left of the translation *)
    eapply (so_bind (car (if (j =? 0) && (0 <? i) then 0%R else w4 g))).
    { eapply so_weak; [|apply (so_for_at (fun a => car (if (j =? 0) && ((0 <? i) && (i <? a)) then 0%R else w4 g)) 1 (i + 1))].
      - intros A A'. replace (i <? Z.max 1 (i + 1)) with true by (symmetry; apply Z.ltb_lt; lia). rewrite andb_true_r. auto.
      - replace ((0 <? i) && (i <? 1)) with false by (destruct (Z.ltb_spec 0 i), (Z.ltb_spec i 1); try reflexivity; lia). rewrite andb_false_r. apply car_head. exact Hg.
      - intros a A A' Ha HA. eapply so_bind_ok; [apply (so_Grid_Get hom); exact Gh|]. intros f f' Gf Gf' [Ef _]. eapply so_bind_ok; [apply so_refl|]. intros bin ? Eb _ <-.
        eapply so_bind; [eapply (gents_get (n1 + 1) (n2 + 1)); [lia|lia|exact Er|left; replace (0 <? i) with true by (symmetry; apply Z.ltb_lt; lia); reflexivity]|]. intros y y' Dy.
        pose proof (car_step _ bin _ _ _ _ _ _ _ HA Ef Dy) as Cs. apply so_ok. refine (car_eq _ _ _ _ _ Cs). clear Cs HA Dy.
        destruct (Z.ltb_spec 0 i); [|lia]. destruct (Z.ltb_spec i a); [lia|]. cbn [andb]. rewrite andb_false_r.
        destruct (Z.eqb_spec (i - a) 0), (Z.ltb_spec i (a + 1)); try lia; cbn [andb]; [|rewrite andb_false_r; reflexivity].
        assert (a = i) as -> by lia. apply Binomial_self in Eb; [|lia]. subst bin. destruct (Z.eqb_spec j 0) as [->|]; [|reflexivity].
        cbn [andb]. assert (f = g) as -> by congruence. ring. }
    intros A A' HA.
    eapply (so_bind (car (if ((j =? 0) && (0 <? i)) || ((i =? 0) && (0 <? j)) then 0%R else w4 g))).
    { eapply so_weak; [|apply (so_for_at (fun a => car (if ((j =? 0) && (0 <? i)) || ((i =? 0) && ((0 <? j) && (j <? a))) then 0%R else w4 g)) 1 (j + 1))].
      - clear A A' HA. intros A A'. replace (j <? Z.max 1 (j + 1)) with true by (symmetry; apply Z.ltb_lt; lia). rewrite andb_true_r. auto.
      - replace ((0 <? j) && (j <? 1)) with false by (destruct (Z.ltb_spec 0 j), (Z.ltb_spec j 1); try reflexivity; lia). rewrite andb_false_r, orb_false_r. exact HA.
      - clear A A' HA. intros a A A' Ha HA. eapply so_bind_ok; [apply (so_Grid_Get hom); exact Gh|]. intros f f' Gf Gf' [Ef _]. eapply so_bind_ok; [apply so_refl|]. intros bin ? Eb _ <-.
        eapply so_bind; [eapply (gents_get (n1 + 1) (n2 + 1)); [lia|lia|exact Er|left; replace (0 <? j) with true by (symmetry; apply Z.ltb_lt; lia); apply orb_true_r]|]. intros y y' Dy.
        pose proof (car_step _ bin _ _ _ _ _ _ _ HA Ef Dy) as Cs. apply so_ok. refine (car_eq _ _ _ _ _ Cs). clear Cs HA Dy.
        destruct (Z.ltb_spec 0 j); [|lia]. destruct (Z.ltb_spec j a); [lia|]. destruct (Z.eqb_spec j 0); [lia|]. cbn [andb orb]. rewrite andb_false_r.
        destruct (Z.eqb_spec (j - a) 0), (Z.ltb_spec j (a + 1)); try lia; cbn [andb]; [|rewrite !andb_false_r; reflexivity].
        assert (a = j) as -> by lia. apply Binomial_self in Eb; [|lia]. subst bin. destruct (Z.eqb_spec i 0) as [->|]; [|reflexivity].
        cbn [andb]. assert (f = g) as -> by congruence. ring. }
    clear A A' HA. intros A A' HA.
    eapply (so_bind (car (if (0 <? i) || (0 <? j) then 0%R else w4 g))).
    { eapply so_weak; [|apply (so_for_at (fun a => car (if ((j =? 0) && (0 <? i)) || ((i =? 0) && (0 <? j)) || ((0 <? i) && (0 <? j) && (i <? a)) then 0%R else w4 g)) 1 (i + 1))].
      - clear A A' HA. intros A A'. replace (i <? Z.max 1 (i + 1)) with true by (symmetry; apply Z.ltb_lt; lia). rewrite andb_true_r. apply car_eq.
        destruct (Z.eqb_spec j 0), (Z.ltb_spec 0 i), (Z.eqb_spec i 0), (Z.ltb_spec 0 j); cbn [andb orb]; try reflexivity; lia.
      - replace ((0 <? i) && (0 <? j) && (i <? 1)) with false by (destruct (Z.ltb_spec 0 i), (Z.ltb_spec 0 j), (Z.ltb_spec i 1); try reflexivity; lia). rewrite orb_false_r. exact HA.
      - clear A A' HA. intros a A A' Ha HA. eapply so_bind_ok; [apply so_refl|]. intros bi ? Ebi _ <-.
        eapply so_weak; [|apply (so_for_at (fun c => car (if ((j =? 0) && (0 <? i)) || ((i =? 0) && (0 <? j)) || ((0 <? i) && (0 <? j) && ((i <? a) || ((i =? a) && (j <? c)))) then 0%R else w4 g)) 1 (j + 1))].
        + clear A A' HA. intros A A'. replace (j <? Z.max 1 (j + 1)) with true by (symmetry; apply Z.ltb_lt; lia). rewrite andb_true_r.
          replace (i <? a + 1) with ((i <? a) || (i =? a)) by (destruct (Z.ltb_spec i a), (Z.eqb_spec i a), (Z.ltb_spec i (a + 1)); try reflexivity; lia). auto.
        + refine (car_eq _ _ _ _ _ HA). destruct (Z.ltb_spec i a); [lia|]. cbn [orb]. destruct (Z.ltb_spec 0 j); [|rewrite !andb_false_r; reflexivity].
          destruct (Z.ltb_spec j 1); [lia|]. rewrite !andb_false_r. reflexivity.
        + clear A A' HA. intros c A A' Hc HA. eapply so_bind_ok; [apply (so_Grid_Get hom); exact Gh|]. intros f f' Gf Gf' [Ef _]. eapply so_bind_ok; [apply so_refl|]. intros bj ? Ebj _ <-.
          eapply so_bind_ok; [apply so_refl|]. intros bin ? Eb _ <-.
          eapply so_bind; [eapply (gents_get (n1 + 1) (n2 + 1)); [lia|lia|exact Er|left; replace (0 <? i) with true by (symmetry; apply Z.ltb_lt; lia); reflexivity]|]. intros y y' Dy.
          pose proof (car_step _ bin _ _ _ _ _ _ _ HA Ef Dy) as Cs. apply so_ok. refine (car_eq _ _ _ _ _ Cs). clear Cs HA Dy.
          destruct (Z.ltb_spec 0 j); [|lia]. destruct (Z.ltb_spec 0 i); [|lia]. destruct (Z.eqb_spec j 0); [lia|]. destruct (Z.eqb_spec i 0); [lia|]. destruct (Z.ltb_spec j c); [lia|].
          destruct (Z.ltb_spec i a); [lia|]. cbn [andb orb]. rewrite andb_false_r.
          destruct (Z.eqb_spec (i - a) 0), (Z.eqb_spec i a); try lia; cbn [andb orb]; [|reflexivity].
          destruct (Z.eqb_spec (j - c) 0), (Z.ltb_spec j (c + 1)); try lia; cbn [andb orb]; [|reflexivity].
          subst a. assert (c = j) as -> by lia. apply Binomial_self in Ebi; [|lia]. apply Binomial_self in Ebj; [|lia]. subst bi bj. cbn in Eb. injection Eb as <-.
          assert (f = g) as -> by congruence. change (1 * 1) with 1. ring. }
    clear A A' HA. intros A A' HA. eapply so_bind; [eapply (car_div ((i =? 0) && (j =? 0))); [exact HA|]|].
    - destruct (Z.ltb_spec 0 i), (Z.eqb_spec i 0), (Z.ltb_spec 0 j), (Z.eqb_spec j 0); cbn [andb orb]; try lia; try reflexivity. subst i j. congruence.
    - intros q q' Dq. replace ((0 <? i) || (0 <? j + 1)) with (((0 <? i) || (0 <? j)) || ((i =? 0) && (j =? 0))); [apply gents_set; try assumption; lia|].
      destruct (Z.ltb_spec 0 i), (Z.eqb_spec i 0), (Z.ltb_spec 0 j), (Z.eqb_spec j 0), (Z.ltb_spec 0 (j + 1)); cbn [andb orb]; try lia; reflexivity.
  Qed.
  Lemma move_Surface_Derivative s t u v n1 n2 : 0 <= n1 -> 0 <= n2 -> surface_by mp s t ->
    so (moved_derivative m b ((n1 =? 0) && (n2 =? 0))) (Surface_EvaluateDerivative s u v n1 n2) (Surface_EvaluateDerivative t u v n1 n2).
  Proof.
    intros H1 H2 R. unfold Surface_EvaluateDerivative. eapply so_bind; [apply move_Surface_EvaluateAll; exact R|]. intros g g' [E1 [E2 [L E]]].
    specialize (E n1 n2). unfold Grid_Get in *. rewrite <- E1, <- E2 in *. destruct (_ && _); [|exact I]. cbn [assert_ bind] in *.
    destruct (Z_lt_dec (n2 * UCount g + n1) 0); [rewrite !vget_oob by lia; reflexivity|]. destruct (Z_lt_dec (n2 * UCount g + n1) (len (Values g))); [|rewrite !vget_oob by lia; reflexivity].
    destruct (vget_ex (Values g) (n2 * UCount g + n1) ltac:(lia)) as [p Ep], (vget_ex (Values g') (n2 * UCount g + n1) ltac:(lia)) as [q Eq]. rewrite Ep, Eq. exact (E p q H1 H2 Ep Eq).
  Qed.
End Move.
