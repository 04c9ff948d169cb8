(** Knot insertion in any arithmetic: surfaces line by line, lists knot by knot. *)
From Coq Require Import ZArith List Lia Bool.
From Verif Require Import Outcome Num ModelCore ModelBasis ModelCurve ModelSurface SpecCore SpecRows ThOutcome ThVec ThGrid ThSurface2.
Import ListNotations.
Open Scope Z_scope.
Open Scope outcome_scope.

Lemma bind_ret {A B} (a : A) (f : A -> outcome B) : bind (Ok a) f = f a.
Proof. reflexivity. Qed.
Section rows.
  Context {T : Type} {NT : Num T}.
  (** the new point with index [i] *)
  Definition new_point (l : list T) (p : Z) (u : T) (pts : list (vec4 T)) (i : Z) : outcome (vec4 T) :=
    ki <- vget l i ;;
    kip <- vget l (i + p) ;;
    al <- ndiv (nsub u ki) (nsub kip ki) ;;
    pi <- vget pts i ;;
    pm <- vget pts (i - 1) ;;
    FromHomo (v4add (v4scale al (ToHomo pi)) (v4scale (nsub n1 al) (ToHomo pm))).
  Definition result {A} (d : A) (o : outcome A) : A := match o with Ok a => a | _ => d end.
  Definition ins_row (l : list T) (p k : Z) (u : T) (pts : list (vec4 T)) (i : Z) : vec4 T :=
    if i <=? k - p then znth v4zero pts i else if i <=? k then result v4zero (new_point l p u pts i) else znth v4zero pts (i - 1).
  Definition ins_all l p k u pts : Prop := forall i, k - p + 1 <= i < k + 1 -> exists q, new_point l p u pts i = Ok q.

  Lemma result_ok (o : outcome (vec4 T)) q : o = Ok q -> o = Ok (result v4zero o).
  Proof. intros ->. reflexivity. Qed.
  Lemma list_tab (l : list (vec4 T)) n f : 0 <= n -> len l = n -> (forall i, 0 <= i < n -> vget l i = Ok (f i)) -> l = map f (zrange 0 n).
  Proof.
    intros N L H. apply (znth_ext v4zero); [rewrite len_map, len_zrange; lia|]. intros i Hi. specialize (H i ltac:(lia)). apply (vget_inv v4zero) in H. destruct H as [_ <-].
    pose proof (vget_zrange_map f 0 n i ltac:(lia)) as E. apply (vget_inv v4zero) in E. destruct E as [_ <-]. reflexivity.
  Qed.

  Lemma curve_insert_ok p l u pts l' k : KnotVector_InsertKnot l u 1 = Ok (l', k) -> 1 <= p -> p <= k < len pts -> ins_all l p k u pts ->
    Curve_InsertKnot (Curve p l pts) u = Ok (Curve p l' (map (ins_row l p k u pts) (zrange 0 (len pts + 1)))).
  Proof.
    intros E P K A. unfold Curve_InsertKnot. cbn [Knots Degree ControlPoints]. rewrite E. cbn [bind].
    destruct (vinsert_spec pts k v4zero) as [np [En [Ln [G1 [G2 G3]]]]]; [lia|]. rewrite En. cbn [bind].
    destruct (for_up_inv (fun i l1 => len l1 = len np /\ (forall q, k - p + 1 <= q < i -> vget l1 q = Ok (ins_row l p k u pts q)) /\
        (forall q, ~ (k - p + 1 <= q < i) -> vget l1 q = vget np q)) (k - p + 1) (k + 1) (fun i new_points =>
        ki <- vget l i ;;
        kip <- vget l (i + p) ;;
        alpha <- ndiv (nsub u ki) (nsub kip ki) ;;
        pi <- vget pts i ;;
        pim1 <- vget pts (i - 1) ;;
        q <- FromHomo (v4add (v4scale alpha (ToHomo pi)) (v4scale (nsub n1 alpha) (ToHomo pim1))) ;;
        vset new_points i q) np) as [l2 [E2 [L2 [A2 B2]]]].
    - lia.
    - split; [reflexivity|]. split; intros; [lia|reflexivity].
    - intros i l1 Hi [L1 [A1 B1]]. destruct (A i Hi) as [q Eq]. pose proof Eq as Eq'. unfold new_point in Eq'. do 5 bindinv Eq'.
      rewrite Eq'0, bind_ret, Eq'1, bind_ret, Eq'2, bind_ret, Eq'3, bind_ret, Eq'4, bind_ret, Eq', bind_ret.
      destruct (vset_spec l1 i q) as [l3 [E3 [L3 [S1 S2]]]]; [lia|]. exists l3. split; [exact E3|]. split; [lia|]. split.
      + intros j Hj. destruct (Z.eq_dec j i) as [->|]; [|rewrite S2 by assumption; apply A1; lia]. rewrite S1. f_equal. unfold ins_row.
        destruct (Z.leb_spec i (k - p)); [lia|]. destruct (Z.leb_spec i k); [|lia]. rewrite Eq. reflexivity.
      + intros j Hj. rewrite S2 by lia. apply B1. lia.
    - rewrite E2. cbn [bind]. do 2 f_equal. apply list_tab; [lia|lia|]. intros i Hi.
      destruct (Z_le_gt_dec (k - p + 1) i) as [Q1|Q1]; [destruct (Z_lt_ge_dec i (k + 1)) as [Q2|Q2]|].
      + apply A2. lia.
      + rewrite B2 by lia. rewrite G3 by lia. unfold ins_row. destruct (Z.leb_spec i (k - p)); [lia|]. destruct (Z.leb_spec i k); [lia|]. apply vget_ok. lia.
      + rewrite B2 by lia. rewrite G1 by lia. unfold ins_row. destruct (Z.leb_spec i (k - p)); [|lia]. apply vget_ok. lia.
  Qed.
  Lemma curve_insert_inv p l u pts c' : Curve_InsertKnot (Curve p l pts) u = Ok c' -> 1 <= p ->
    exists l' k, KnotVector_InsertKnot l u 1 = Ok (l', k) /\ p <= k < len pts /\ ins_all l p k u pts.
  Proof.
    intros E P. unfold Curve_InsertKnot in E. cbn [Knots Degree ControlPoints] in E. bindinv E. destruct a as [l' k]. do 2 bindinv E. clear E.
    exists l', k. split; [exact E0|]. assert (ins_all l p k u pts) as A.
    { assert (forall i, k - p + 1 <= i < k + 1 -> exists q, new_point l p u pts i = Ok q) as Q; [|exact Q].
      refine (for_up_inv_partial (fun h _ => forall i, k - p + 1 <= i < h -> exists q, new_point l p u pts i = Ok q) (k - p + 1) (k + 1) _ a a0 _ _ _ E2).
      - lia.
      - intros. lia.
      - intros i s s' Hi IH B j Hj. destruct (Z.eq_dec j i) as [->|]; [|apply IH; lia].
        do 6 bindinv B. exists a6. unfold new_point. rewrite B0, bind_ret, B1, bind_ret, B2, bind_ret, B3, bind_ret, B4, bind_ret. exact B5. }
    split; [|exact A]. destruct (A k ltac:(lia)) as [q1 Ea]. destruct (A (k - p + 1) ltac:(lia)) as [q2 Eb]. unfold new_point in Ea, Eb. do 5 bindinv Ea. do 5 bindinv Eb.
    apply (vget_inv v4zero) in Ea3, Eb4. lia.
  Qed.

  Lemma insert_alphas_any l p k u pts : 1 <= p -> ins_all l p k u pts ->
    exists al, insert_alphas l p k u = Ok al /\ forall i, k - p + 1 <= i < k + 1 ->
      exists ki kip, vget l i = Ok ki /\ vget l (i + p) = Ok kip /\ exists a, ndiv (nsub u ki) (nsub kip ki) = Ok a /\ vget al (i - k + p - 1) = Ok a.
  Proof.
    intros P A. unfold insert_alphas. rewrite vmake_ok by lia. cbn [bind].
    destruct (for_up_inv (fun i al => len al = p /\ forall q, k - p + 1 <= q < i ->
       exists ki kip, vget l q = Ok ki /\ vget l (q + p) = Ok kip /\ exists a, ndiv (nsub u ki) (nsub kip ki) = Ok a /\ vget al (q - k + p - 1) = Ok a)
      (k - p + 1) (k + 1) (fun i alphas =>
        let idx := i - k + p - 1 in
        ki <- vget l i ;;
        kip <- vget l (i + p) ;;
        alpha <- ndiv (nsub u ki) (nsub kip ki) ;;
        vset alphas idx alpha) (repeat n0 (Z.to_nat p))) as [al [E [L G]]].
    - lia.
    - split; [rewrite len_repeat; lia|]. intros; lia.
    - intros i al Hi [L G]. destruct (A i Hi) as [q Eq]. unfold new_point in Eq. do 5 bindinv Eq. cbv zeta.
      rewrite Eq0, bind_ret, Eq1, bind_ret, Eq2, bind_ret.
      destruct (vset_spec al (i - k + p - 1) a1) as [al' [E' [L' [S1 S2]]]]; [lia|].
      exists al'. split; [exact E'|]. split; [lia|]. intros j Hj. destruct (Z.eq_dec j i) as [->|].
      + exists a, a0. split; [exact Eq0|]. split; [exact Eq1|]. exists a1. split; [exact Eq2|exact S1].
      + rewrite S2 by lia. apply G. lia.
    - exists al. split; [exact E|exact G].
  Qed.

  Definition cell (g : grid (vec4 T)) (i j : Z) : vec4 T := znth v4zero (Values g) (j * UCount g + i).
  Lemma full_is (g : grid (vec4 T)) : full_grid g -> grid_is g (UCount g) (VCount g) (cell g).
  Proof. intros [Hu [Hv L]]. destruct g as [gu gv vs]. apply (grid_is_ex v4zero); assumption. Qed.
  Lemma line_u_get (g : grid (vec4 T)) j l i : full_grid g -> line_u g j l -> 0 <= i < UCount g -> vget l i = Ok (cell g i j).
  Proof.
    intros G [Hj [L H]] Hi. pose proof (grid_is_ze _ _ _ _ (full_is g G) i j Hi Hj) as Z1. unfold ze in Z1. rewrite <- H in Z1 by assumption. apply vget_ze; [lia|exact Z1].
  Qed.
  Lemma line_v_get (g : grid (vec4 T)) i l j : full_grid g -> line_v g i l -> 0 <= j < VCount g -> vget l j = Ok (cell g i j).
  Proof.
    intros G [Hi [L H]] Hj. pose proof (grid_is_ze _ _ _ _ (full_is g G) i j Hi Hj) as Z1. unfold ze in Z1. rewrite <- H in Z1 by assumption. apply vget_ze; [lia|exact Z1].
  Qed.
  Lemma line_u_ex (g : grid (vec4 T)) u v f j : grid_is g u v f -> 0 <= j < v -> line_u g j (map (fun i => f i j) (zrange 0 u)).
  Proof.
    intros G Hj. pose proof (grid_is_ze _ _ _ _ G) as Z1. destruct G as [Gu [Gv [Hu [Hv [L _]]]]]. unfold line_u. rewrite Gu, Gv. split; [exact Hj|].
    split; [rewrite len_map, len_zrange; lia|]. intros i Hi. specialize (Z1 i j Hi Hj). unfold ze in Z1. rewrite Z1.
    pose proof (vget_zrange_map (fun i => f i j) 0 u i ltac:(lia)) as E. cbv beta in E. rewrite Z.add_0_l in E. unfold vget in E. destruct (Z.ltb_spec i 0); [lia|]. destruct (nth_error _ (Z.to_nat i)); [|discriminate]. congruence.
  Qed.
  Lemma line_v_ex (g : grid (vec4 T)) u v f i : grid_is g u v f -> 0 <= i < u -> line_v g i (map (fun j => f i j) (zrange 0 v)).
  Proof.
    intros G Hi. pose proof (grid_is_ze _ _ _ _ G) as Z1. destruct G as [Gu [Gv [Hu [Hv [L _]]]]]. unfold line_v. rewrite Gu, Gv. split; [exact Hi|].
    split; [rewrite len_map, len_zrange; lia|]. intros j Hj. specialize (Z1 i j Hi Hj). unfold ze in Z1. rewrite Z1.
    pose proof (vget_zrange_map (fun j => f i j) 0 v j ltac:(lia)) as E. cbv beta in E. rewrite Z.add_0_l in E. unfold vget in E. destruct (Z.ltb_spec j 0); [lia|]. destruct (nth_error _ (Z.to_nat j)); [|discriminate]. congruence.
  Qed.
  Lemma line_u_fun (g : grid (vec4 T)) j l l' : full_grid g -> line_u g j l -> line_u g j l' -> l = l'.
  Proof.
    intros G L1 L2. pose proof G as [Hu _]. rewrite (list_tab l (UCount g) (fun i => cell g i j)); [symmetry; apply list_tab|..]; try apply L1; try apply L2; try exact Hu;
      intros; apply line_u_get; assumption.
  Qed.
  Lemma line_v_fun (g : grid (vec4 T)) j l l' : full_grid g -> line_v g j l -> line_v g j l' -> l = l'.
  Proof.
    intros G L1 L2. pose proof G as [_ [Hv _]]. rewrite (list_tab l (VCount g) (fun i => cell g j i)); [symmetry; apply list_tab|..]; try apply L1; try apply L2; try exact Hv;
      intros; apply line_v_get; assumption.
  Qed.
  Lemma is_full (g : grid (vec4 T)) u v f : grid_is g u v f -> full_grid g.
  Proof. intros [Gu [Gv [Hu [Hv [L _]]]]]. unfold full_grid. rewrite Gu, Gv. auto. Qed.
  (** ** Surfaces, line by line *)
  Lemma surface_insertU_ok jk (s : surface T) u : full_grid (Net s) -> 1 <= DegreeU s -> 1 <= VCount (Net s) ->
    (forall j l, line_u (Net s) j l -> exists c', Curve_InsertKnot (Curve (DegreeU s) (KnotsU s) l) u = Ok c') ->
    exists s', Surface_InsertKnotU jk s u = Ok s' /\ full_grid (Net s') /\ DegreeU s' = DegreeU s /\ DegreeV s' = DegreeV s /\ KnotsV s' = KnotsV s /\
      UCount (Net s') = UCount (Net s) + 1 /\ VCount (Net s') = VCount (Net s) /\
      forall j l, line_u (Net s) j l -> exists l', line_u (Net s') j l' /\ Curve_InsertKnot (Curve (DegreeU s) (KnotsU s) l) u = Ok (Curve (DegreeU s) (KnotsU s') l').
  Proof.
    intros F P V H. pose proof (full_is _ F) as G. set (row := fun j => map (fun i => cell (Net s) i j) (zrange 0 (UCount (Net s)))).
    assert (forall j, 0 <= j < VCount (Net s) -> line_u (Net s) j (row j)) as Lr by (intros; apply (line_u_ex _ _ _ _ _ G); assumption).
    assert (forall j, len (row j) = UCount (Net s)) as Rl by (intros; unfold row; rewrite len_map, len_zrange; destruct F; lia).
    destruct (H 0 (row 0) (Lr 0 ltac:(lia))) as [c0 E0]. destruct (curve_insert_inv _ _ _ _ _ E0 P) as [l' [k [Ek [Hk A0]]]]. rewrite Rl in Hk.
    assert (forall j, 0 <= j < VCount (Net s) -> ins_all (KnotsU s) (DegreeU s) k u (row j)) as Aj.
    { intros j Hj. destruct (H j (row j) (Lr j Hj)) as [cj Ej]. destruct (curve_insert_inv _ _ _ _ _ Ej P) as [l2 [k2 [Ek2 [_ A2]]]]. rewrite Ek in Ek2. injection Ek2 as <- <-. exact A2. }
    assert (forall j i, 0 <= i < UCount (Net s) -> vget (row j) i = Ok (cell (Net s) i j)) as Rg.
    { intros j i Hi. unfold row. rewrite vget_zrange_map by lia. rewrite Z.add_0_l. reflexivity. }
    assert (forall j i, 0 <= i < UCount (Net s) -> znth v4zero (row j) i = cell (Net s) i j) as Rz.
    { intros j i Hi. pose proof (Rg j i Hi) as Q. apply (vget_inv v4zero) in Q. symmetry. apply Q. }
    unfold Surface_InsertKnotU. rewrite Ek. cbn [bind].
    destruct (Grid_InsertU_ok jk (Net s) _ _ _ k v4zero G) as [g1 [E1 G1]]; [lia|]. rewrite E1. cbn [bind]. cbv zeta.
    destruct (insert_alphas_any _ _ _ _ _ P A0) as [al [Ea Ga]]. rewrite Ea. cbn [bind].
    assert (VCount g1 = VCount (Net s)) as -> by apply G1.
    destruct (fill_rows g1 _ _ _ (k - DegreeU s + 1) (k + 1) (VCount (Net s)) (fun i j => ins_row (KnotsU s) (DegreeU s) k u (row j) i)
      (fun i j net => pi <- Grid_Get (Net s) i j ;;
        pim1 <- Grid_Get (Net s) (i - 1) j ;;
        alpha <- vget al (i - k + DegreeU s - 1) ;;
        q <- FromHomo (v4add (v4scale alpha (ToHomo pi)) (v4scale (nsub n1 alpha) (ToHomo pim1))) ;;
        Grid_Set net i j q) G1) as [g2 [E2 G2]]; try lia.
    - intros i j g' Hi Hj. rewrite !(Grid_Get_ok _ _ _ _ _ _ G) by lia. rewrite !bind_ret. destruct (Ga i Hi) as [ki [kip [K1 [K2 [a [D1 D2]]]]]]. rewrite D2, bind_ret.
      destruct (Aj j Hj i Hi) as [q Eq]. unfold ins_row. destruct (Z.leb_spec i (k - DegreeU s)); [lia|]. destruct (Z.leb_spec i k); [|lia]. rewrite Eq. cbn [result].
      unfold new_point in Eq. rewrite K1, bind_ret, K2, bind_ret, D1, bind_ret, !Rg, !bind_ret in Eq by lia. rewrite Eq. reflexivity.
    - rewrite E2. cbn [bind]. eexists. split; [reflexivity|]. cbn [Net DegreeU DegreeV KnotsU KnotsV]. split; [exact (is_full _ _ _ _ G2)|]. do 3 (split; [reflexivity|]).
      split; [apply G2|]. split; [apply G2|]. intros j l Ll. pose proof Ll as [Hj _]. rewrite (line_u_fun _ _ _ _ F Ll (Lr j Hj)).
      rewrite (curve_insert_ok _ _ _ _ _ _ Ek P ltac:(rewrite Rl; lia) (Aj j Hj)). rewrite Rl. eexists. split; [|reflexivity].
      refine (line_u_ex g2 _ _ (fun i j => ins_row (KnotsU s) (DegreeU s) k u (row j) i) j _ Hj). apply (grid_is_eq _ _ _ _ _ G2). clear j l Ll Hj. intros i j Hi Hj.
      unfold ins_row. destruct (Z.leb_spec (k - DegreeU s + 1) i), (Z.ltb_spec i (k + 1)), (Z.ltb_spec j (VCount (Net s))), (Z.leb_spec i (k - DegreeU s)), (Z.leb_spec i k), (Z.ltb_spec i k), (Z.eqb_spec i k);
       simpl; try lia; rewrite ?Rz by lia; reflexivity.
  Qed.
  Lemma surface_insertV_ok (s : surface T) u : full_grid (Net s) -> 1 <= DegreeV s -> 1 <= UCount (Net s) ->
    (forall j l, line_v (Net s) j l -> exists c', Curve_InsertKnot (Curve (DegreeV s) (KnotsV s) l) u = Ok c') ->
    exists s', Surface_InsertKnotV s u = Ok s' /\ full_grid (Net s') /\ DegreeU s' = DegreeU s /\ DegreeV s' = DegreeV s /\ KnotsU s' = KnotsU s /\
      UCount (Net s') = UCount (Net s) /\ VCount (Net s') = VCount (Net s) + 1 /\
      forall j l, line_v (Net s) j l -> exists l', line_v (Net s') j l' /\ Curve_InsertKnot (Curve (DegreeV s) (KnotsV s) l) u = Ok (Curve (DegreeV s) (KnotsV s') l').
  Proof.
    intros F P V H. pose proof (full_is _ F) as G. set (row := fun j => map (fun i => cell (Net s) j i) (zrange 0 (VCount (Net s)))).
    assert (forall j, 0 <= j < UCount (Net s) -> line_v (Net s) j (row j)) as Lr by (intros; apply (line_v_ex _ _ _ _ _ G); assumption).
    assert (forall j, len (row j) = VCount (Net s)) as Rl by (intros; unfold row; rewrite len_map, len_zrange; destruct F; lia).
    destruct (H 0 (row 0) (Lr 0 ltac:(lia))) as [c0 E0]. destruct (curve_insert_inv _ _ _ _ _ E0 P) as [l' [k [Ek [Hk A0]]]]. rewrite Rl in Hk.
    assert (forall j, 0 <= j < UCount (Net s) -> ins_all (KnotsV s) (DegreeV s) k u (row j)) as Aj.
    { intros j Hj. destruct (H j (row j) (Lr j Hj)) as [cj Ej]. destruct (curve_insert_inv _ _ _ _ _ Ej P) as [l2 [k2 [Ek2 [_ A2]]]]. rewrite Ek in Ek2. injection Ek2 as <- <-. exact A2. }
    assert (forall j i, 0 <= i < VCount (Net s) -> vget (row j) i = Ok (cell (Net s) j i)) as Rg.
    { intros j i Hi. unfold row. rewrite vget_zrange_map by lia. rewrite Z.add_0_l. reflexivity. }
    assert (forall j i, 0 <= i < VCount (Net s) -> znth v4zero (row j) i = cell (Net s) j i) as Rz.
    { intros j i Hi. pose proof (Rg j i Hi) as Q. apply (vget_inv v4zero) in Q. symmetry. apply Q. }
    unfold Surface_InsertKnotV. rewrite Ek. cbn [bind].
    destruct (Grid_InsertV_ok (Net s) _ _ _ k v4zero G) as [g1 [E1 G1]]; [lia|]. rewrite E1. cbn [bind]. cbv zeta.
    destruct (insert_alphas_any _ _ _ _ _ P A0) as [al [Ea Ga]]. rewrite Ea. cbn [bind].
    assert (UCount g1 = UCount (Net s)) as -> by apply G1.
    destruct (fill_cols g1 _ _ _ (k - DegreeV s + 1) (k + 1) (UCount (Net s)) (fun j i => ins_row (KnotsV s) (DegreeV s) k u (row j) i)
      (fun j i net => pi <- Grid_Get (Net s) j i ;;
        pim1 <- Grid_Get (Net s) j (i - 1) ;;
        alpha <- vget al (i - k + DegreeV s - 1) ;;
        q <- FromHomo (v4add (v4scale alpha (ToHomo pi)) (v4scale (nsub n1 alpha) (ToHomo pim1))) ;;
        Grid_Set net j i q) G1) as [g2 [E2 G2]]; try lia.
    - intros j i g' Hi Hj. rewrite !(Grid_Get_ok _ _ _ _ _ _ G) by lia. rewrite !bind_ret. destruct (Ga i Hi) as [ki [kip [K1 [K2 [a [D1 D2]]]]]]. rewrite D2, bind_ret.
      destruct (Aj j Hj i Hi) as [q Eq]. unfold ins_row. destruct (Z.leb_spec i (k - DegreeV s)); [lia|]. destruct (Z.leb_spec i k); [|lia]. rewrite Eq. cbn [result].
      unfold new_point in Eq. rewrite K1, bind_ret, K2, bind_ret, D1, bind_ret, !Rg, !bind_ret in Eq by lia. rewrite Eq. reflexivity.
    - rewrite E2. cbn [bind]. eexists. split; [reflexivity|]. cbn [Net DegreeU DegreeV KnotsU KnotsV]. split; [exact (is_full _ _ _ _ G2)|]. do 3 (split; [reflexivity|]).
      split; [apply G2|]. split; [apply G2|]. intros j l Ll. pose proof Ll as [Hj _]. rewrite (line_v_fun _ _ _ _ F Ll (Lr j Hj)).
      rewrite (curve_insert_ok _ _ _ _ _ _ Ek P ltac:(rewrite Rl; lia) (Aj j Hj)). rewrite Rl. eexists. split; [|reflexivity].
      refine (line_v_ex g2 _ _ (fun j i => ins_row (KnotsV s) (DegreeV s) k u (row j) i) j _ Hj). apply (grid_is_eq _ _ _ _ _ G2). clear j l Ll Hj. intros j i Hj Hi.
      unfold ins_row. destruct (Z.leb_spec (k - DegreeV s + 1) i), (Z.ltb_spec i (k + 1)), (Z.ltb_spec j (UCount (Net s))), (Z.leb_spec i (k - DegreeV s)), (Z.leb_spec i k), (Z.ltb_spec i k), (Z.eqb_spec i k);
       simpl; try lia; rewrite ?Rz by lia; reflexivity.
  Qed.

  (** ** A list of knots, knot by knot *)
  Lemma insert_one_ok_any p l u pts l' k : KnotVector_FindSpanIndex l p u = Ok k -> vinsert l (k + 1) 1 u = Ok l' -> 0 <= p -> p <= k < len pts -> ins_all l p k u pts ->
    insert_one p (l, pts) u = Ok (l', map (ins_row l p k u pts) (zrange 0 (len pts + 1))).
  Proof.
    intros E V P K A. unfold insert_one. rewrite E. cbn [bind]. destruct (vget_ex pts k ltac:(lia)) as [pk Epk]. rewrite Epk, bind_ret.
    destruct (vinsert_spec pts k pk) as [np [En [Ln [G1 [G2 G3]]]]]; [lia|].
    assert (forall q, 0 <= q <= k -> vget np q = vget pts q) as Gl.
    { intros q Hq. destruct (Z.eq_dec q k) as [->|]; [rewrite G2; symmetry; exact Epk|]. apply G1. lia. }
    rewrite En, bind_ret. destruct (vget_ex pts (k - p) ltac:(lia)) as [pf Epf]. rewrite Gl by lia. rewrite Epf, bind_ret.
    destruct (for_up_inv (fun i (st : list (vec4 T) * vec4 T) => (exists q, vget pts (i - 1) = Ok q /\ snd st = ToHomo q) /\ len (fst st) = len np /\
        (forall q, k - p + 1 <= q < i -> vget (fst st) q = Ok (ins_row l p k u pts q)) /\
        (forall q, ~ (k - p + 1 <= q < i) -> vget (fst st) q = vget np q))
      (k - p + 1) (k + 1) (fun i '(points, point_last) =>
          ki <- vget l i ;;
          kip <- vget l (i + p) ;;
          alpha <- ndiv (nsub u ki) (nsub kip ki) ;;
          pi <- vget points i ;;
          let point_i := ToHomo pi in
          point_new <- FromHomo (v4add (v4scale alpha point_i) (v4scale (nsub n1 alpha) point_last)) ;;
          points <- vset points i point_new ;;
          Ok (points, point_i)) (np, ToHomo pf)) as [[l2 last2] [E2 [_ [L2 [A2 B2]]]]].
    - lia.
    - cbn [fst snd]. split; [exists pf; split; [rewrite <- Epf; f_equal; lia|reflexivity]|]. split; [reflexivity|]. split; intros; [lia|reflexivity].
    - intros i [l1 lst] Hi [[ql [Eql Es]] [L1 [A1 B1]]]. cbn [fst snd] in *. subst lst. destruct (A i Hi) as [q Eq]. pose proof Eq as Eq'. unfold new_point in Eq'. do 5 bindinv Eq'.
      assert (a3 = ql) as -> by congruence.
      rewrite Eq'0, bind_ret, Eq'1, bind_ret, Eq'2, bind_ret. rewrite B1 by lia. rewrite Gl by lia. rewrite Eq'3, bind_ret. cbv zeta. rewrite Eq', bind_ret.
      destruct (vset_spec l1 i q) as [l3 [E3 [L3 [S1 S2]]]]; [lia|]. rewrite E3, bind_ret. eexists. split; [reflexivity|]. cbn [fst snd].
      split; [exists a2; split; [rewrite <- Eq'3; f_equal; lia|reflexivity]|]. split; [lia|]. split.
      + intros j Hj. destruct (Z.eq_dec j i) as [->|]; [|rewrite S2 by assumption; apply A1; lia]. rewrite S1. f_equal. unfold ins_row.
        destruct (Z.leb_spec i (k - p)); [lia|]. destruct (Z.leb_spec i k); [|lia]. rewrite Eq. reflexivity.
      + intros j Hj. rewrite S2 by lia. apply B1. lia.
    - cbn [fst snd] in *. rewrite E2. cbn [bind]. rewrite V. cbn [bind]. do 2 f_equal. apply list_tab; [lia|lia|]. intros i Hi.
      destruct (Z_le_gt_dec (k - p + 1) i) as [Q1|Q1]; [destruct (Z_lt_ge_dec i (k + 1)) as [Q2|Q2]|].
      + apply A2. lia.
      + rewrite B2 by lia. rewrite G3 by lia. unfold ins_row. destruct (Z.leb_spec i (k - p)); [lia|]. destruct (Z.leb_spec i k); [lia|]. apply vget_ok. lia.
      + rewrite B2 by lia. rewrite Gl by lia. unfold ins_row. destruct (Z.leb_spec i (k - p)); [|lia]. apply vget_ok. lia.
  Qed.
End rows.
