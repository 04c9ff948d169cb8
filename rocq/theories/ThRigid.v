(** Rigid motions: parameter searches and knot removal (C109). *)
From Coq Require Import Reals ZArith List Lia Lra Bool FunctionalExtensionality.
From Verif Require Import Outcome Num ModelCore ModelBasis ModelAlgo ModelCurve ModelSurface SpecCore SpecCurve SpecMeta SpecMove ThOutcome ThVec ThSo ThSoGen ThMove.
Import ListNotations.
Open Scope Z_scope.

(** ** Knot removal on related points *)
Section Removal.
  Context {T : Type} `{Num T}.
  Variable hr : vec4 T -> vec4 T -> Prop.
  Hypothesis H0 : hr v4zero v4zero.
  Hypothesis HA : forall a b a' b', hr a a' -> hr b b' -> hr (v4add a b) (v4add a' b').
  Hypothesis HM : forall a b a' b', hr a a' -> hr b b' -> hr (v4sub a b) (v4sub a' b').
  Hypothesis HS : forall s a a', hr a a' -> hr (v4scale s a) (v4scale s a').
  Hypothesis HV : forall s a a', hr a a' -> so hr (v4div a s) (v4div a' s).
  Hypothesis HT : forall p q, hr p q -> hr (ToHomo p) (ToHomo q).
  Hypothesis HF : forall p q, hr p q -> so hr (FromHomo p) (FromHomo q).
  Hypothesis HW : forall p q, hr p q -> w4 p = w4 q.
  Hypothesis HN : forall p q, hr p q -> v4norm p = v4norm q.
  Hypothesis HH : forall p q, hr p q -> v3norm (head3 p) = v3norm (head3 q).
  Let Hl := Forall2 hr.
  Let Ho := Forall2 (ro hr).
  Local Ltac sb tac := eapply so_bind; [tac|].
  Local Ltac here := apply so_same; intros ?.

  Lemma rm_CalcTOL l l' e : Hl l l' -> CalcTOL l e = CalcTOL l' e.
  Proof.
    intros F. unfold CalcTOL. match goal with |- context[fold_left ?g l ?a] => assert (forall s, fold_left g l s = fold_left g l' s) as E end.
    { induction F as [|p q l l' P F IH]; intros s; cbn [fold_left]; [reflexivity|]. destruct s as [a b]. rewrite (HW _ _ P), (HH _ _ P). apply IH. }
    rewrite E. reflexivity.
  Qed.
  Definition sw5 (x y : Z * Z * Z * Z * list (option (vec4 T))) : Prop := fst x = fst y /\ Ho (snd x) (snd y).
  Lemma rm_sweep kn l l' o u t st st' : Hl l l' -> sw5 st st' -> so sw5 (removal_sweep kn l o u t st) (removal_sweep kn l' o u t st').
  Proof.
    intros F S. unfold removal_sweep. destruct st as [[[[i0 j0] a0] b0] e0], st' as [[[[i0' j0'] a0'] b0'] e0']. pose proof S as [E _]. cbn [fst] in E. injection E as <- <- <- <-.
    apply (so_while sw5); [| |exact S].
    - intros [[[[i j] a] b] e] [[[[i' j'] a'] b'] e'] [E _]. cbn [fst] in E. injection E as <- <- <- <-. reflexivity.
    - clear S. intros [[[[i j] a] b] e] [[[[i' j'] a'] b'] e'] [E Fe]. cbn [fst snd] in *. injection E as <- <- <- <-. do 6 here.
      sb ltac:(apply (so_vget hr); exact F). intros p p' Hp. sb ltac:(apply (so_ugets hr); exact Fe). intros q q' Hq. sb ltac:(apply HV; apply HM; [exact Hp|apply HS; exact Hq]). intros x x' Hx.
      sb ltac:(apply so_usets; eassumption). clear e e' Fe. intros e e' Fe. sb ltac:(apply (so_vget hr); exact F). clear p p' Hp. intros p p' Hp. sb ltac:(apply (so_ugets hr); exact Fe).
      clear q q' Hq. intros q q' Hq. sb ltac:(apply HV; apply HM; [exact Hp|apply HS; exact Hq]). clear x x' Hx. intros x x' Hx. sb ltac:(apply so_usets; eassumption).
      clear e e' Fe. intros e e' Fe. split; [reflexivity|exact Fe].
  Qed.
  Definition cp3 (x y : Z * Z * list (vec4 T)) : Prop := fst x = fst y /\ Hl (snd x) (snd y).
  Lemma rm_copy tm tm' off t st st' : Ho tm tm' -> cp3 st st' -> so cp3 (removal_copy tm off t st) (removal_copy tm' off t st').
  Proof.
    intros Ft S. unfold removal_copy. destruct st as [[i0 j0] l0], st' as [[i0' j0'] l0']. pose proof S as [E _]. cbn [fst] in E. injection E as <- <-.
    apply (so_while cp3); [| |exact S].
    - intros [[i j] l] [[i' j'] l'] [E _]. cbn [fst] in E. injection E as <- <-. reflexivity.
    - clear S. intros [[i j] l] [[i' j'] l'] [E F]. cbn [fst snd] in *. injection E as <- <-. sb ltac:(apply (so_ugets hr); exact Ft). intros x x' Hx. sb ltac:(apply so_vset; eassumption).
      clear l l' F. intros l l' F. sb ltac:(apply (so_ugets hr); exact Ft). clear x x' Hx. intros x x' Hx. sb ltac:(apply so_vset; eassumption).
      clear l l' F. intros l l' F. split; [reflexivity|exact F].
  Qed.
  Lemma rm_loop n : forall kn o u tol t first last l l' tm tm', Hl l l' -> Ho tm tm' ->
    so (rp eq Hl) (removal_loop n kn o u tol t first last l tm) (removal_loop n kn o u tol t first last l' tm').
  Proof.
    induction n as [|n IH]; intros kn o u tol t first last l l' tm tm' F Ft; cbn [removal_loop]; [split; [reflexivity|exact F]|].
    sb ltac:(apply (so_vget hr); exact F). intros p p' Hp. sb ltac:(apply so_usets; eassumption). clear tm tm' Ft. intros tm tm' Ft.
    sb ltac:(apply (so_vget hr); exact F). clear p p' Hp. intros p p' Hp. sb ltac:(apply so_usets; eassumption). clear tm tm' Ft. intros tm tm' Ft.
    sb ltac:(apply rm_sweep; [exact F|split; [reflexivity|exact Ft]]). clear tm tm' Ft. intros [[[[i j] a] b] tm] [[[[i' j'] a'] b'] tm'] [E Ft]. cbn [fst snd] in *. injection E as <- <- <- <-.
    eapply (so_bind eq).
    - apply so_if.
      + sb ltac:(apply (so_ugets hr); exact Ft). intros x x' Hx. sb ltac:(apply (so_ugets hr); exact Ft). intros y y' Hy. cbn. apply HN. apply HM; assumption.
      + do 3 here. sb ltac:(apply (so_ugets hr); exact Ft). intros x x' Hx. sb ltac:(apply (so_ugets hr); exact Ft). intros y y' Hy. sb ltac:(apply (so_vget hr); exact F). intros z z' Hz.
        cbn. apply HN. apply HM; [|exact Hz]. apply HA; apply HS; assumption.
    - intros dist ? <-. apply so_if; [split; [reflexivity|exact F]|]. sb ltac:(apply rm_copy; [exact Ft|split; [reflexivity|exact F]]).
      intros [[i1 j1] l1] [[i1' j1'] l1'] [_ F1]. cbn [snd] in F1. apply IH; assumption.
  Qed.
  Lemma rm_KnotRemoval kn l l' p u n tol : Hl l l' -> so (rp eq Hl) (KnotRemoval kn l p u n tol) (KnotRemoval kn l' p u n tol).
  Proof.
    intros F0. unfold KnotRemoval. cbv zeta. rewrite !len_map, (F2_len hr _ _ F0). assert (Hl (map ToHomo l) (map ToHomo l')) as F by (apply (F2_map hr hr); [exact HT|exact F0]). clear F0.
    generalize dependent (map ToHomo l'). generalize (map ToHomo l). intros hs hs' F. rewrite (rm_CalcTOL hs hs' tol F). do 2 here. sb ltac:(apply (so_uninit hr)). intros tm tm' Ft.
    sb ltac:(apply rm_loop; eassumption). intros [t q] [t' q'] [E Fq]. cbn [fst snd] in *. subst t'. apply so_if; [split; [reflexivity|exact Fq]|].
    apply so_same. intros [i j]. sb ltac:(apply (so_for (rp Hl eq)); [split; [exact Fq|reflexivity]|]).
    - clear q q' Fq. intros k [q c] [q' c'] [Fq E]. cbn [fst snd] in *. subst c'. sb ltac:(apply (so_vget hr); exact Fq). intros x x' Hx. sb ltac:(apply so_vset; eassumption).
      clear q q' Fq. intros q q' Fq. split; [exact Fq|reflexivity].
    - clear q q' Fq. intros [q c] [q' c'] [Fq _]. cbn [fst snd] in *. rewrite (F2_len hr q q' Fq). sb ltac:(apply (so_vresize hr); [exact Fq|exact H0]). clear q q' Fq. intros q q' Fq. do 2 here.
      sb ltac:(apply (so_mapM hr hr); [exact HF|exact Fq]). clear q q' Fq. intros q q' Fq. split; [reflexivity|exact Fq].
  Qed.
  Lemma rm_Curve c d u n tol : curve_by hr c d -> so (rp (curve_by hr) eq) (Curve_RemoveKnot c u n tol) (Curve_RemoveKnot d u n tol).
  Proof.
    intros [E1 [E2 F]]. unfold Curve_RemoveKnot. rewrite <- E1, <- E2. do 2 here. sb ltac:(apply rm_KnotRemoval; exact F). intros [[t k] q] [[t' k'] q'] [E Fq]. cbn [fst snd] in *.
    injection E as <- <-. split; [|reflexivity]. split; [reflexivity|]. split; [reflexivity|exact Fq].
  Qed.
  Definition rowres (x y : option (Z * list T * grid (option (vec4 T)))) : Prop := ro (rp eq (grid_by (ro hr))) x y.
  Lemma rm_rowsU s s' u n tol : surface_by hr s s' -> forall k it t kn g g', grid_by (ro hr) g g' ->
    so rowres (removeU_rows s u n tol k it t kn g) (removeU_rows s' u n tol k it t kn g').
  Proof.
    intros [E1 [E2 [E3 [E4 G]]]]. pose proof G as [EU [EV _]]. induction k as [|k IH]; intros it t kn g g' Gg; cbn [removeU_rows]; [split; [reflexivity|exact Gg]|]. rewrite <- E1, <- EV.
    sb ltac:(apply (so_Grid_GetV hr); exact G). intros l l' F. sb ltac:(apply rm_KnotRemoval; exact F). intros [[t1 k1] q] [[t1' k1'] q'] [E Fq]. cbn [fst snd] in *. injection E as <- <-.
    apply so_if; [exact I|]. sb ltac:(apply (so_Grid_SetV (ro hr)); [exact Gg|apply (F2_map hr (ro hr)); [auto|exact Fq]]). intros h h' Gh. apply IH. exact Gh.
  Qed.
  Lemma rm_rowsV s s' u n tol : surface_by hr s s' -> forall k it t kn g g', grid_by (ro hr) g g' ->
    so rowres (removeV_rows s u n tol k it t kn g) (removeV_rows s' u n tol k it t kn g').
  Proof.
    intros [E1 [E2 [E3 [E4 G]]]]. pose proof G as [EU [EV _]]. induction k as [|k IH]; intros it t kn g g' Gg; cbn [removeV_rows]; [split; [reflexivity|exact Gg]|]. rewrite <- E2, <- EU.
    sb ltac:(apply (so_Grid_GetU hr); exact G). intros l l' F. sb ltac:(apply rm_KnotRemoval; exact F). intros [[t1 k1] q] [[t1' k1'] q'] [E Fq]. cbn [fst snd] in *. injection E as <- <-.
    apply so_if; [exact I|]. sb ltac:(apply (so_Grid_SetU (ro hr)); [exact Gg|apply (F2_map hr (ro hr)); [auto|exact Fq]]). intros h h' Gh. apply IH. exact Gh.
  Qed.
  Lemma rm_SurfaceU s s' u n tol : surface_by hr s s' -> so (rp (surface_by hr) eq) (Surface_RemoveKnotU s u n tol) (Surface_RemoveKnotU s' u n tol).
  Proof.
    intros R. pose proof R as [E1 [E2 [E3 [E4 G]]]]. pose proof G as [EU [EV _]]. unfold Surface_RemoveKnotU. rewrite <- E1, <- E2, <- E3, <- E4, <- EU, <- EV.
    sb ltac:(apply (so_grid_uninit hr)). intros g g' Gg. sb ltac:(apply rm_rowsU; eassumption). intros [[[t k] h]|] [[[t' k'] h']|] Q; try contradiction; [|split; [exact R|reflexivity]].
    destruct Q as [E Gh]. cbn [fst snd] in *. injection E as <- <-. sb ltac:(apply (so_grid_freeze hr); exact Gh). intros f f' Gf. split; [|reflexivity]. repeat split; try reflexivity; apply Gf.
  Qed.
  Lemma rm_SurfaceV s s' u n tol : surface_by hr s s' -> so (rp (surface_by hr) eq) (Surface_RemoveKnotV s u n tol) (Surface_RemoveKnotV s' u n tol).
  Proof.
    intros R. pose proof R as [E1 [E2 [E3 [E4 G]]]]. pose proof G as [EU [EV _]]. unfold Surface_RemoveKnotV. rewrite <- E1, <- E2, <- E3, <- E4, <- EU, <- EV.
    sb ltac:(apply (so_grid_uninit hr)). intros g g' Gg. sb ltac:(apply rm_rowsV; eassumption). intros [[[t k] h]|] [[[t' k'] h']|] Q; try contradiction; [|split; [exact R|reflexivity]].
    destruct Q as [E Gh]. cbn [fst snd] in *. injection E as <- <-. sb ltac:(apply (so_grid_freeze hr); exact Gh). intros f f' Gf. split; [|reflexivity]. repeat split; try reflexivity; apply Gf.
  Qed.
End Removal.

(** ** Isometries *)
Section Rigid.
  Variables (m : mat3 R) (b : vec3 R) (k : R).
  Hypothesis I : isometry m.
  Lemma iso_dot u v : v3dot (mat_apply m u) (mat_apply m v) = v3dot u v.
  Proof.
    pose proof (I u) as A. pose proof (I v) as B. pose proof (I (Vec3 (x3 u + x3 v) (y3 u + y3 v) (z3 u + z3 v))%R) as C. unfold v3dot, mat_apply in *. cbn [x3 y3 z3 nadd nmul Num_R] in *.
    nra.
  Qed.
  Lemma iso_norm v : v3norm (mat_apply m v) = v3norm v.
  Proof. unfold v3norm. rewrite iso_dot. reflexivity. Qed.
  Lemma sub_moved p q : v3sub (affine3 m b p) (affine3 m b q) = mat_apply m (v3sub p q).
  Proof. unfold v3sub, affine3, mat_apply. cbn [x3 y3 z3 nsub Num_R]. f_equal; ring. Qed.
  Let tp := turned_point m.
  Lemma tp_inv p q : tp p q -> w4 q = w4 p /\ let r := mat_apply m (head3 p) in x4 q = x3 r /\ y4 q = y3 r /\ z4 q = z3 r.
  Proof. intros [E1 E2]. split; [exact E1|]. unfold head3. rewrite <- E2. repeat split. Qed.
  Lemma tp_make p q : w4 q = w4 p -> head3 q = mat_apply m (head3 p) -> tp p q.
  Proof. intros E1 E2. split; assumption. Qed.
  Lemma tp_head p q : tp p q -> head3 q = mat_apply m (head3 p).
  Proof. intros [_ E]. exact E. Qed.
  Local Ltac alg := unfold head3, mat_apply; cbn [w4 x4 y4 z4 x3 y3 z3 v4add v4sub v4scale v4zero ToHomo nadd nsub nmul n0 Num_R].
  Lemma tp_zero : tp v4zero v4zero.
  Proof. apply tp_make; alg; [reflexivity|]. f_equal; ring. Qed.
  Lemma tp_add p q p' q' : tp p p' -> tp q q' -> tp (v4add p q) (v4add p' q').
  Proof. intros A B. apply tp_inv in A, B. destruct A as [A1 [A2 [A3 A4]]], B as [B1 [B2 [B3 B4]]]. apply tp_make; alg; [congruence|]. rewrite A2, A3, A4, B2, B3, B4. alg. f_equal; ring. Qed.
  Lemma tp_sub p q p' q' : tp p p' -> tp q q' -> tp (v4sub p q) (v4sub p' q').
  Proof. intros A B. apply tp_inv in A, B. destruct A as [A1 [A2 [A3 A4]]], B as [B1 [B2 [B3 B4]]]. apply tp_make; alg; [congruence|]. rewrite A2, A3, A4, B2, B3, B4. alg. f_equal; ring. Qed.
  Lemma tp_scale s p p' : tp p p' -> tp (v4scale s p) (v4scale s p').
  Proof. intros A. apply tp_inv in A. destruct A as [A1 [A2 [A3 A4]]]. apply tp_make; alg; [congruence|]. rewrite A2, A3, A4. alg. f_equal; ring. Qed.
  Lemma tp_homo p p' : tp p p' -> tp (ToHomo p) (ToHomo p').
  Proof. intros A. apply tp_inv in A. destruct A as [A1 [A2 [A3 A4]]]. apply tp_make; alg; [congruence|]. rewrite A1, A2, A3, A4. alg. f_equal; ring. Qed.
  Lemma tp_div s p p' : tp p p' -> so tp (v4div p s) (v4div p' s).
  Proof.
    intros A. apply tp_inv in A. destruct A as [A1 [A2 [A3 A4]]]. unfold v4div. cbn [ndiv Num_R]. destruct (Req_EM_T s 0); [exact Logic.I|]. apply tp_make; alg; [congruence|].
    rewrite A2, A3, A4. alg. f_equal; field; assumption.
  Qed.
  Lemma tp_from p p' : tp p p' -> so tp (FromHomo p) (FromHomo p').
  Proof.
    intros A. apply tp_inv in A. destruct A as [A1 [A2 [A3 A4]]]. unfold FromHomo, v3div. cbn [head3 ndiv Num_R x3 y3 z3]. rewrite A1. destruct (Req_EM_T (w4 p) 0); [exact Logic.I|].
    cbn [bind so same_outcome]. apply tp_make; [exact A1|]. rewrite A2, A3, A4. unfold set_head3. alg. f_equal; field; assumption.
  Qed.
  Lemma tp_w p q : tp p q -> w4 p = w4 q.
  Proof. intros [E _]. auto. Qed.
  Lemma tp_norm3 p q : tp p q -> v3norm (head3 p) = v3norm (head3 q).
  Proof. intros A. rewrite (tp_head _ _ A), iso_norm. reflexivity. Qed.
  Lemma tp_norm4 p q : tp p q -> v4norm p = v4norm q.
  Proof.
    intros A. unfold v4norm. f_equal. pose proof (iso_dot (head3 p) (head3 p)) as D. rewrite <- (tp_head _ _ A) in D. unfold v3dot, head3 in D. cbn [x3 y3 z3] in D.
    rewrite <- D. rewrite (tp_w _ _ A). reflexivity.
  Qed.
  Local Ltac all1 := first [exact tp_zero|exact tp_add|exact tp_sub|exact tp_scale|exact tp_div|exact tp_homo|exact tp_from|exact tp_w|exact tp_norm4|exact tp_norm3].
  Lemma rigid_RemoveKnot c d u n tol : curve_by tp c d -> so (fun x y => curve_by tp (fst x) (fst y) /\ snd x = snd y) (Curve_RemoveKnot c u n tol) (Curve_RemoveKnot d u n tol).
  Proof. apply (rm_Curve tp); all1. Qed.
  Lemma rigid_RemoveKnotU s t u n tol : surface_by tp s t -> so (fun x y => surface_by tp (fst x) (fst y) /\ snd x = snd y) (Surface_RemoveKnotU s u n tol) (Surface_RemoveKnotU t u n tol).
  Proof. apply (rm_SurfaceU tp); all1. Qed.
  Lemma rigid_RemoveKnotV s t u n tol : surface_by tp s t -> so (fun x y => surface_by tp (fst x) (fst y) /\ snd x = snd y) (Surface_RemoveKnotV s u n tol) (Surface_RemoveKnotV t u n tol).
  Proof. apply (rm_SurfaceV tp); all1. Qed.

  (** ** Searches *)
  Hypothesis K : (k <> 0)%R.
  Let mp := moved_point m b k.
  Lemma rigid_Ri c d p x : curve_by mp c d ->
    so (fun r r' => r' = mat_apply m r) (e <- Curve_Evaluate c x ;; Ok (v3sub e p)) (e <- Curve_Evaluate d x ;; Ok (v3sub e (affine3 m b p))).
  Proof. intros R. eapply so_bind; [apply (move_Evaluate m b k K); exact R|]. intros e ? ->. cbn. apply sub_moved. Qed.
  Lemma rigid_Ri2 s t p u v : surface_by mp s t ->
    so (fun r r' => r' = mat_apply m r) (e <- Surface_Evaluate s u v ;; Ok (v3sub e p)) (e <- Surface_Evaluate t u v ;; Ok (v3sub e (affine3 m b p))).
  Proof. intros R. eapply so_bind; [apply (move_Surface_Evaluate m b k K); exact R|]. intros e ? ->. cbn. apply sub_moved. Qed.
  Lemma rigid_Search fuel c d p i e n : curve_by mp c d -> Curve_SearchParameter fuel c p i e n = Curve_SearchParameter fuel d (affine3 m b p) i e n.
  Proof.
    intros R. unfold Curve_SearchParameter. cbv zeta. f_equal; apply functional_extensionality; intros x; apply so_eq.
    - eapply so_bind; [apply rigid_Ri; exact R|]. intros r ? ->. cbn. symmetry. apply iso_norm.
    - eapply so_bind; [apply rigid_Ri; exact R|]. intros r ? ->. eapply so_bind; [apply (move_Derivative m b k K); exact R|]. intros q ? ->. cbn [Z.eqb same_outcome]. symmetry. apply iso_dot.
  Qed.
  Lemma rigid_BinarySearch c d p e n : curve_by mp c d -> Curve_BinarySearchParameter c p e n = Curve_BinarySearchParameter d (affine3 m b p) e n.
  Proof.
    intros R. unfold Curve_BinarySearchParameter. cbv zeta. f_equal; apply functional_extensionality; intros x; apply so_eq.
    eapply so_bind; [apply (move_Evaluate m b k K); exact R|]. intros r ? ->. cbn [same_outcome]. rewrite sub_moved. symmetry. apply iso_norm.
  Qed.
  Lemma rigid_Surface_Search fuel s t p u v e n : surface_by mp s t -> Surface_SearchParameter fuel s p u v e n = Surface_SearchParameter fuel t (affine3 m b p) u v e n.
  Proof.
    intros R. unfold Surface_SearchParameter. cbv zeta. f_equal. apply functional_extensionality. intros _. f_equal. apply functional_extensionality. intros _.
    f_equal; apply functional_extensionality; intros x; apply so_eq.
    - eapply so_bind; [apply rigid_Ri2; exact R|]. intros r ? ->. cbn. symmetry. apply iso_norm.
    - eapply so_bind; [apply rigid_Ri2; exact R|]. intros r ? ->. eapply (so_bind (fun q q' => q' = mat_apply m q)).
      { eapply so_weak; [|apply (move_Surface_Derivative m b k K); [lia|lia|exact R]]. intros q q' E. exact E. }
      intros q ? ->. eapply (so_bind (fun q q' => q' = mat_apply m q)).
      { eapply so_weak; [|apply (move_Surface_Derivative m b k K); [lia|lia|exact R]]. intros y y' E. exact E. }
      intros y ? ->. cbn [same_outcome]. rewrite !iso_dot. reflexivity.
  Qed.
  Lemma rigid_SearchOn fuel s t p dir w i e n : surface_by mp s t -> Surface_SearchParameterOn fuel s p dir w i e n = Surface_SearchParameterOn fuel t (affine3 m b p) dir w i e n.
  Proof.
    intros R. unfold Surface_SearchParameterOn, on_uv. cbv zeta. f_equal. f_equal; apply functional_extensionality; intros x; apply so_eq.
    - eapply so_bind; [apply rigid_Ri2; exact R|]. intros r ? ->. cbn. symmetry. apply iso_norm.
    - eapply so_bind; [apply rigid_Ri2; exact R|]. intros r ? ->. eapply (so_bind (fun q q' => q' = mat_apply m q)).
      + apply so_if; (eapply so_weak; [|apply (move_Surface_Derivative m b k K); [lia|lia|exact R]]); intros q q' E; exact E.
      + intros q ? ->. cbn [same_outcome]. symmetry. apply iso_dot.
  Qed.
  Lemma rigid_BinaryOn fuel s t p dir w e n : surface_by mp s t -> Surface_BinarySearchParameterOn fuel s p dir w e n = Surface_BinarySearchParameterOn fuel t (affine3 m b p) dir w e n.
  Proof.
    intros R. unfold Surface_BinarySearchParameterOn, on_uv. cbv zeta. f_equal. f_equal; apply functional_extensionality; intros x; apply so_eq.
    eapply so_bind; [apply (move_Surface_Evaluate m b k K); exact R|]. intros r ? ->. cbn [same_outcome]. rewrite sub_moved. symmetry. apply iso_norm.
  Qed.
End Rigid.

Lemma C109_search_lemma m b k : isometry m -> (k <> 0)%R -> forall fuel (c d : curve R) p init eps n, curve_by (moved_point m b k) c d ->
  Curve_SearchParameter fuel d (affine3 m b p) init eps n = Curve_SearchParameter fuel c p init eps n.
Proof. intros I K fuel c d p i e n R. symmetry. apply (rigid_Search m b k); assumption. Qed.
Lemma C109_binary_search_lemma m b k : isometry m -> (k <> 0)%R -> forall (c d : curve R) p eps n, curve_by (moved_point m b k) c d ->
  Curve_BinarySearchParameter d (affine3 m b p) eps n = Curve_BinarySearchParameter c p eps n.
Proof. intros I K c d p e n R. symmetry. apply (rigid_BinarySearch m b k); assumption. Qed.
Lemma C109_surface_search_lemma m b k : isometry m -> (k <> 0)%R -> forall fuel (c d : surface R) p u v eps n, surface_by (moved_point m b k) c d ->
  Surface_SearchParameter fuel d (affine3 m b p) u v eps n = Surface_SearchParameter fuel c p u v eps n.
Proof. intros I K fuel c d p u v e n R. symmetry. apply (rigid_Surface_Search m b k); assumption. Qed.
Lemma C109_search_on_lemma m b k : isometry m -> (k <> 0)%R -> forall fuel (c d : surface R) p dir constant init eps n, surface_by (moved_point m b k) c d ->
  Surface_SearchParameterOn fuel d (affine3 m b p) dir constant init eps n = Surface_SearchParameterOn fuel c p dir constant init eps n.
Proof. intros I K fuel c d p dir w i e n R. symmetry. apply (rigid_SearchOn m b k); assumption. Qed.
Lemma C109_binary_search_on_lemma m b k : isometry m -> (k <> 0)%R -> forall fuel (c d : surface R) p dir constant eps n, surface_by (moved_point m b k) c d ->
  Surface_BinarySearchParameterOn fuel d (affine3 m b p) dir constant eps n = Surface_BinarySearchParameterOn fuel c p dir constant eps n.
Proof. intros I K fuel c d p dir w e n R. symmetry. apply (rigid_BinaryOn m b k); assumption. Qed.
