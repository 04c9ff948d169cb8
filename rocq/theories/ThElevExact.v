(** Degree elevation succeeds exactly when the binomials fit, no interior knot
    is repeated more than the degree, and the buffers are long enough (C106). *)
From Coq Require Import Reals ZArith List Lia Lra Bool SpecFloat Classical.
From Verif Require Import Outcome Num ModelCore ModelAlgo ModelCurve ModelSurface SpecCore SpecBasis SpecCurve SpecBezier SpecElevate SpecErr
  ThOutcome ThReal ThMath ThVec ThGrid ThB64 ThKnots ThCoreWit ThDecide ThSum ThSpline ThBasis ThCurve ThInsert ThReverse ThRemove ThElevKnots ThElevPos ThElevForm ThElevCode ThElevLoop ThElevate ThElevSurf ThSafe ThSafeRem ThSafeRem2 ThAlign64 ThElevSim ThElevBuf ThElev64.
Import ListNotations.
Open Scope Z_scope.

(** ** Buffers too short *)
Lemma vget_pre {A} (l e : list A) i x : vget l i = Ok x -> vget (l ++ e) i = Ok x.
Proof.
  unfold vget. destruct (i <? 0); [discriminate|]. intros E. destruct (nth_error l (Z.to_nat i)) as [y|] eqn:F; [|discriminate].
  rewrite nth_error_app1 by (apply nth_error_Some; congruence). rewrite F. exact E.
Qed.
Lemma buffers_short p t (K : list R) : clamped p K -> 1 <= p -> 1 <= t -> p + t <= 29 -> interior_multiplicity_le p K -> spread K ->
  2 * (len K - p - 2 + t) < len K - p - 1 + t * spans K ->
  NurbsDegreeElevation K (repeat (Vec4 0 0 0 1)%R (Z.to_nat (len K - p - 1))) p t = Undefined OutOfBounds.
Proof.
  intros C P1 T Bnd Im Se Bf. pose proof (cl_len _ _ C) as Lk. assert (0 <= t) as T0 by lia. pose (P := fun _ : Z => ToHomo (Vec4 0 0 0 1)%R).
  set (pts := map ToHomo (repeat (Vec4 0 0 0 1)%R (Z.to_nat (len K - p - 1)))).
  assert (len pts = len K - p - 1) as Lp by (unfold pts; rewrite len_map, len_repeat; lia).
  assert (forall i, 0 <= i < len pts -> vget pts i = Ok (P i)) as HP.
  { intros i Hi. unfold pts in *. rewrite len_map in Hi. unfold P. apply vget_map_ok. destruct (vget_ex _ _ Hi) as [x Ex]. rewrite Ex. f_equal.
    apply (vget_inv x) in Ex. destruct Ex as [_ Ex]. apply (repeat_spec (Z.to_nat (len K - p - 1)) (Vec4 0 0 0 1)%R). rewrite Ex. apply znth_In. exact Hi. }
  assert (forall j, brk K j -> ~ close (kf K j) (kf K (j + 1))) as Sep by (intros j Bj; apply Se; apply (brk_consecutive p K C); exact Bj).
  assert (forall a0 a, adj K a0 a -> a - a0 <= p) as Mul.
  { intros a0 a A. rewrite <- (adj_count p K C a0 a A). apply Im. apply (adj_unit p K C a0 a A). }
  pose (bufn := (len pts - 1 + t) * 2). pose (N := len (EV t K) - (p + t) - 1).
  assert (bufn < N) as Buf by (unfold N; rewrite (ev_length p K C t T0); unfold bufn; lia).
  unfold NurbsDegreeElevation. destruct (Z.leb_spec 1 t); [|lia]. cbn [assert_ bind]. fold pts.
  destruct (bezalfs_ok p t ltac:(lia) T Bnd) as [bzm [Ez Hz]]. rewrite Ez. cbn [bind].
  rewrite vget_kf by lia. cbn [bind]. replace ((len pts - 1 + t) * 2) with bufn by reflexivity.
  destruct (uninit_spec (vec4 R) bufn ltac:(unfold bufn; lia)) as [Q0 [E1 [LQ0 _]]]. rewrite E1. cbn [bind].
  rewrite HP by lia. cbn [bind]. destruct (uset_spec Q0 0 (P 0) ltac:(unfold bufn in *; lia)) as [Q1 [E2 [LQ1 [VQ1 _]]]]. rewrite E2. cbn [bind].
  destruct (vmake_spec (bufn + (p + t) + 1) (n0 : R) ltac:(unfold bufn in *; lia)) as [U0 [E3 [LU0 _]]]. rewrite E3. cbn [bind].
  assert (kf K 0 = 0%R) as Z0 by (rewrite kf_at by lia; apply (cl_zero _ _ C); lia).
  match goal with |- context [for_up 0 (p + t + 1) ?bo U0] =>
    destruct (for_up_inv (fun i (u : list R) => len u = bufn + (p + t) + 1 /\ forall j, 0 <= j < i -> vget u j = Ok 0%R) 0 (p + t + 1) bo U0) as [U1 [E4 [LU1 HU1]]] end.
  { lia. } { split; [exact LU0|]. intros; lia. }
  { intros i u Hi [Lu Hu]. rewrite Z0. destruct (vset_spec u i 0%R ltac:(unfold bufn in *; lia)) as [u' [E [L' [G' O']]]]. exists u'. split; [exact E|]. split; [lia|].
    intros j Hj. destruct (Z.eq_dec j i) as [->|Ne]; [exact G'|]. rewrite O' by exact Ne. apply Hu. lia. }
  rewrite E4. cbn [bind].
  destruct (tabulate_spec 0 (p + 1) (fun i => vget pts i) P ltac:(lia)) as [bp [E5 [Lbp Hbp]]].
  { intros i Hi. apply HP. lia. }
  rewrite E5. cbn [bind]. rewrite Z.sub_0_r in *.
  destruct (uninit_spec (vec4 R) (p - 1) ltac:(lia)) as [nb [E6 [Lnb _]]]. rewrite E6. cbn [bind].
  destruct (uninit_spec (vec4 R) (p + t + 1) ltac:(lia)) as [eb [E7 [Leb _]]]. rewrite E7. cbn [bind].
  replace (len pts - 1 + p + 1) with (len K - 1) by lia.
  pose (eQ := repeat (@None (vec4 R)) (Z.to_nat (N - bufn))). pose (eU := repeat 0%R (Z.to_nat (N - bufn))).
  destruct (elevation_loop p t K pts P N bzm (Q1 ++ eQ) (U1 ++ eU) bp nb eb) as [st [E8 F8]]; try assumption; try (unfold N; lia).
  { left. reflexivity. }
  { unfold eQ. rewrite len_app, len_repeat. lia. }
  { apply vget_pre. exact VQ1. }
  { unfold eU. rewrite len_app, len_repeat. lia. }
  { intros j Hj. apply vget_pre. apply HU1. exact Hj. }
  match type of E8 with while_ ?fu ?co ?bo ?s0 = _ =>
    assert (psim (prel bufn (bufn + (p + t) + 1)) (while_ fu co bo (ES (p + t) (p + t + 1) (-1) p (p + 1) 1 (kf K 0) Q1 U1 bp nb eb)) (while_ fu co bo s0)) as S end.
  { apply psim_while.
    - intros s s' R. rewrite (pr_b _ _ _ _ R). apply psim_refl.
    - intros s s' R. apply psim_step. exact R.
    - constructor; cbn [es_mh es_kind es_r es_a es_b es_cind es_ua es_Qw es_Uh es_bpts es_nextbpts es_ebpts]; try reflexivity.
      + split; [lia|]. exists eQ. reflexivity.
      + split; [lia|]. exists eU. reflexivity.
      + unfold bufn. lia. }
  destruct (S st E8) as [->|[a [Ea Ra]]]; [reflexivity|]. exfalso. pose proof (pr_le _ _ _ _ Ra) as Le. rewrite (pr_cind _ _ _ _ Ra) in Le.
  destruct F8 as [_ [_ [_ [_ [_ [_ Ec]]]]]]. unfold N in *. lia.
Qed.
Lemma buffers_short64 p t (K : list b64) pts : sound_knots p K -> len pts = len K - p - 1 -> 1 <= p -> 1 <= t -> p + t <= 29 ->
  interior_multiplicity_le p (vals K) -> spread (vals K) -> 2 * (len K - p - 2 + t) < len K - p - 1 + t * spans (vals K) ->
  NurbsDegreeElevation K pts p t = Undefined OutOfBounds.
Proof.
  intros Sk L P1 T B Im Sp Bf. pose proof Sk as [Fl C]. pose proof (cl_len _ _ C) as CL. pose proof (cl_degree _ _ C) as CD.
  assert (@sim R b64 _ _ _ _ (eres kr64) (NurbsDegreeElevation (vals K) (repeat (Vec4 0 0 0 1)%R (Z.to_nat (len (vals K) - p - 1))) p t) (NurbsDegreeElevation K pts p t)) as S.
  { apply (sim_elevation R_div b64_div kr64).
    - split; [apply finite_0|]. symmetry. exact val_0.
    - intros l l' F. apply kr64_list in F. destruct F as [F ->]. symmetry. apply ValidateKnots_b64. exact F.
    - apply kr64_list. split; [exact Fl|reflexivity].
    - intros i a b a' b'. apply (Approx_agree p); assumption.
    - rewrite len_repeat, len_vals in *. lia. }
  rewrite buffers_short in S; try assumption; [|rewrite len_vals; lia]. inversion S as [| | |u E1 E2| | |m N E]; [congruence|exfalso; apply N; exact total_b64].
Qed.

(** ** Binomials too large *)
Lemma choose_grows n k : choose n k <= choose (S n) k.
Proof. destruct k as [|k]; [rewrite !choose_0_r; lia|]. change (choose (S n) (S k)) with (choose n k + choose n (S k)). pose proof (choose_nonneg n k). lia. Qed.
Lemma choose_large n k : (30 <= n)%nat -> choose 30 k <= choose n k.
Proof. induction 1 as [|n L IH]; [lia|]. pose proof (choose_grows n k). lia. Qed.
Lemma overflow_ex n k : binomial_fits n k \/ exists j, (j < k)%nat /\ binomial_fits n j /\ INT_MAX < (Z.of_nat n - Z.of_nat j) * choose n j.
Proof.
  induction k as [|k IH]; [left; intros i Hi; lia|]. destruct IH as [F|[j [H1 H2]]]; [|right; exists j; split; [lia|exact H2]].
  destruct (Z_le_gt_dec ((Z.of_nat n - Z.of_nat k) * choose n k) INT_MAX) as [L|G].
  - left. intros i Hi. destruct (Nat.eq_dec i k) as [->|Ne]; [exact L|apply F; lia].
  - right. exists k. split; [lia|]. split; [exact F|lia].
Qed.
Lemma Binomial_15 n : 30 <= n -> Binomial n 15 = Undefined IntOverflow.
Proof.
  intros Hn. destruct (Z_le_gt_dec n INT_MAX) as [L|G].
  - replace n with (Z.of_nat (Z.to_nat n)) by lia. set (m := Z.to_nat n) in *. destruct (overflow_ex m 15) as [F|[j [H1 [H2 H3]]]].
    + exfalso. specialize (F 14%nat ltac:(lia)). pose proof (choose_large m 14 ltac:(lia)) as Cm. assert (choose 30 14 = 145422675) as E by (rewrite <- nth_row; vm_compute; reflexivity).
      rewrite E in Cm. unfold INT_MAX in F. assert (16 <= Z.of_nat m - Z.of_nat 14) by lia. nia.
    + change 15 with (Z.of_nat 15). apply (Binomial_overflow m 15 j); try assumption; lia.
  - unfold Binomial. rewrite Z.gtb_ltb. destruct (Z.ltb_spec n 15); [lia|]. unfold for_up. change (Z.to_nat (15 + 1 - 1)) with (S 14). cbn [loop].
    unfold int_ at 1. unfold fits_int. destruct (Z.leb_spec (n - 1 + 1) INT_MAX); [lia|]. rewrite andb_false_r. reflexivity.
Qed.
(** a value or an integer overflow *)
Definition ovf {A} (Q : A -> Prop) (m : outcome A) : Prop := m = Undefined IntOverflow \/ exists a, m = Ok a /\ Q a.
Lemma ovf_ok {A} (Q : A -> Prop) a : Q a -> ovf Q (Ok a).
Proof. intros. right. eauto. Qed.
Lemma ovf_bind {A B} (Q : A -> Prop) (R : B -> Prop) m f : ovf Q m -> (forall a, Q a -> ovf R (f a)) -> ovf R (bind m f).
Proof. intros [->|[a [-> Qa]]] Hf; [left; reflexivity|]. cbn [bind]. apply Hf. exact Qa. Qed.
Lemma ovf_loop {S} (I : S -> Prop) body : forall n i s, (forall j s, i <= j < i + Z.of_nat n -> I s -> ovf I (body j s)) -> I s -> ovf I (loop n i body s).
Proof.
  induction n as [|n IH]; intros i s Hb Hs; cbn [loop]; [apply ovf_ok; exact Hs|]. eapply ovf_bind; [apply Hb; [lia|exact Hs]|]. intros a Ia. apply IH; [|exact Ia]. intros j s' Hj. apply Hb. lia.
Qed.
Lemma ovf_for {S} (I : S -> Prop) lo hi body s : (forall j s, lo <= j < hi -> I s -> ovf I (body j s)) -> I s -> ovf I (for_up lo hi body s).
Proof. intros Hb Hs. unfold for_up. apply ovf_loop; [|exact Hs]. intros j s' Hj. apply Hb. lia. Qed.
(** a loop one of whose rounds overflows *)
Lemma ovf_at {S} (I : S -> Prop) lo hi k body s : lo <= k < hi -> (forall j s, lo <= j < hi -> I s -> ovf I (body j s)) ->
  (forall s, I s -> body k s = Undefined IntOverflow) -> I s -> for_up lo hi body s = Undefined IntOverflow.
Proof.
  intros Hk Hb Hf. unfold for_up. assert (lo <= k < lo + Z.of_nat (Z.to_nat (hi - lo))) as Hk' by lia. assert (forall j s, lo <= j < lo + Z.of_nat (Z.to_nat (hi - lo)) -> I s -> ovf I (body j s)) as Hb' by (intros; apply Hb; [lia|assumption]).
  clear Hk Hb. revert Hk' Hb'. generalize (Z.to_nat (hi - lo)) as n. intros n. revert s lo. induction n as [|n IH]; intros s lo Hk Hb Hs; [lia|]. cbn [loop].
  destruct (Z.eq_dec lo k) as [->|Ne]; [rewrite (Hf s Hs); reflexivity|]. destruct (Hb lo s ltac:(lia) Hs) as [->|[a [-> Ia]]]; [reflexivity|]. cbn [bind].
  apply IH; [lia| |exact Ia]. intros j s' Hj. apply Hb. lia.
Qed.
Lemma ovf_Binomial n k : ovf (fun _ => True) (Binomial n k).
Proof.
  unfold Binomial. destruct (k >? n); [apply ovf_ok; exact I|]. apply ovf_for; [|exact I]. intros j s _ _. unfold int_. destruct (fits_int (n - j + 1)); cbn [bind]; [|left; reflexivity].
  destruct (fits_int (s * (n - j + 1))); cbn [bind]; [|left; reflexivity]. apply ovf_ok. exact I.
Qed.
Lemma bezalfs_overflow p t : 0 <= p -> 1 <= t -> 30 <= p + t -> (elevation_bezalfs p t : outcome (list (list b64))) = Undefined IntOverflow.
Proof.
  intros P0 T B. unfold elevation_bezalfs. cbv zeta. destruct (vmake_spec (p + 1) (n0 : b64) ltac:(lia)) as [row [-> [Lr _]]]. cbn [bind].
  destruct (vmake_spec (p + t + 1) row ltac:(lia)) as [bz [-> [Lb Hb]]]. cbn [bind].
  pose (I := fun m : list (list b64) => len m = p + t + 1 /\ forall i r, vget m i = Ok r -> len r = p + 1).
  assert (I bz) as I0.
  { split; [exact Lb|]. intros i r E. pose proof E as E'. apply (vget_inv row) in E'. destruct E' as [Hi _]. rewrite Hb in E by lia. congruence. }
  assert (forall m i j x, I m -> 0 <= i < p + t + 1 -> 0 <= j < p + 1 -> exists m', set2 m i j x = Ok m' /\ I m') as St.
  { intros m i j x [Lm Hm] Hi Hj. unfold set2. destruct (vget_ex m i ltac:(lia)) as [r Er]. rewrite Er. cbn [bind]. pose proof (Hm i r Er) as Lr'.
    destruct (vset_spec r j x ltac:(lia)) as [r' [E1 [L1 _]]]. rewrite E1. cbn [bind]. destruct (vset_spec m i r' ltac:(lia)) as [m' [E2 [L2 [G2 O2]]]]. exists m'. split; [exact E2|]. split; [lia|].
    intros i' q Eq. destruct (Z.eq_dec i' i) as [->|Ne]; [rewrite G2 in Eq; injection Eq as <-; lia|]. rewrite O2 in Eq by exact Ne. apply (Hm i'). exact Eq. }
  destruct (St bz (p + t) p n1 I0 ltac:(lia) ltac:(lia)) as [bz1 [-> I1]]. cbn [bind]. destruct (St bz1 0 0 n1 I1 ltac:(lia) ltac:(lia)) as [bz2 [-> I2]]. cbn [bind].
  pose proof (Z.quot_rem' (p + t) 2). pose proof (Z.rem_bound_pos (p + t) 2).
  rewrite (ovf_at I 1 (Z.quot (p + t) 2 + 1) 15); [reflexivity|lia| | |exact I2].
  - intros i s Hi Is. eapply ovf_bind; [apply ovf_Binomial|]. intros b _. destruct (total_b64 n1 (nofZ b)) as [inv [-> _]]. cbn [bind].
    apply ovf_for; [|exact Is]. intros j m Hj Im. eapply ovf_bind; [apply ovf_Binomial|]. intros b1 _. eapply ovf_bind; [apply ovf_Binomial|]. intros b2 _.
    match goal with |- context [set2 m i j ?x] => destruct (St m i j x Im ltac:(lia) ltac:(lia)) as [m' [-> Im']] end. apply ovf_ok. exact Im'.
  - intros s _. rewrite Binomial_15 by lia. reflexivity.
Qed.

(** ** A knot repeated too often *)
(** a value or undefined behaviour *)
Definition um {A} (Q : A -> Prop) (m : outcome A) : Prop := match m with Ok a => Q a | Undefined _ => True | _ => False end.
Lemma um_bind {A B} (Q : A -> Prop) (R : B -> Prop) m f : um Q m -> (forall a, Q a -> um R (f a)) -> um R (bind m f).
Proof. destruct m; cbn [um bind]; intros Hm Hf; try contradiction; auto. Qed.
Lemma um_vget {A} (l : list A) i : um (fun _ => True) (vget l i).
Proof. unfold vget. destruct (i <? 0); [exact I|]. destruct (nth_error _ _); exact I. Qed.
Lemma um_vset {A} (l : list A) i x : um (fun _ => 0 <= i) (vset l i x).
Proof. unfold vset. destruct (Z.leb_spec 0 i); cbn [andb]; [|exact I]. destruct (i <? len l); [assumption|exact I]. Qed.
Lemma um_vset_any {A} (l : list A) i x : um (fun _ => True) (vset l i x).
Proof. unfold vset. destruct (_ && _); exact I. Qed.
Lemma um_ugets {A} (l : list (option A)) i : um (fun _ => True) (ugets l i).
Proof. unfold ugets. eapply um_bind; [apply um_vget|]. intros [x|] _; exact I. Qed.
Lemma um_usets {A} (l : list (option A)) i x : um (fun _ => True) (usets l i x).
Proof. apply um_vset_any. Qed.
Lemma um_get2 (m : list (list b64)) i j : um (fun _ => True) (get2 m i j).
Proof. unfold get2. eapply um_bind; [apply um_vget|]. intros r _. apply um_vget. Qed.
Lemma um_loop {S} (body : Z -> S -> outcome S) : (forall i s, um (fun _ => True) (body i s)) -> forall n i s, um (fun _ => True) (loop n i body s).
Proof. intros Hb. induction n as [|n IH]; intros i s; cbn [loop]; [exact I|]. eapply um_bind; [apply Hb|]. intros a _. apply IH. Qed.
Lemma um_for {S} (body : Z -> S -> outcome S) lo hi s : (forall i s, um (fun _ => True) (body i s)) -> um (fun _ => True) (for_up lo hi body s).
Proof. intros Hb. unfold for_up. apply um_loop. exact Hb. Qed.
Lemma um_down {S} (body : Z -> S -> outcome S) hi lo s : (forall i s, um (fun _ => True) (body i s)) -> um (fun _ => True) (for_down hi lo body s).
Proof.
  intros Hb. unfold for_down. generalize (Z.to_nat (hi - lo + 1)). intros n. revert hi s. induction n as [|n IH]; intros hi s; cbn [loop_down]; [exact I|].
  eapply um_bind; [apply Hb|]. intros a _. apply IH.
Qed.
Lemma um_while {S} (J : S -> Prop) (mu : S -> Z) cond body :
  (forall s, J s -> exists b, cond s = Ok b /\ (b = true -> 0 < mu s /\ um (fun s' => J s' /\ mu s' < mu s) (body s))) ->
  forall n s, J s -> mu s <= Z.of_nat n -> um (fun s' => J s' /\ cond s' = Ok false) (while_ n cond body s).
Proof.
  intros St. induction n as [|n IH]; intros s Js Hn; destruct (St s Js) as [b [Ec Hb]]; cbn [while_]; rewrite Ec; cbn [bind]; (destruct b; [|split; assumption]); destruct (Hb eq_refl) as [Mu Ub].
  - lia.
  - eapply um_bind; [exact Ub|]. intros s' [J' M']. apply IH; [exact J'|lia].
Qed.
Ltac ub tac := eapply um_bind; [tac|].
Lemma um_div (a b : b64) : um (fun _ => True) (ndiv a b).
Proof. destruct (total_b64 a b) as [x [-> _]]. exact I. Qed.
Lemma um_insert (K : list b64) p mul r a ua ub bp nb : 1 <= p -> um (fun _ => True) (elevation_insert K p mul r a ua ub bp nb).
Proof.
  intros P1. unfold elevation_insert. destruct (r >? 0); [|exact I]. cbv zeta. ub ltac:(instantiate (1 := fun _ => True)).
  { unfold vmake. destruct (Z.ltb_spec (p - 1) 0); [lia|exact I]. }
  intros al _. ub ltac:(apply um_down; intros k s; ub ltac:(apply um_vget); intros x _; ub ltac:(apply um_div); intros q _; apply um_vset_any). intros al' _.
  apply um_for. intros j [bp1 nb1]. ub ltac:(apply um_down; intros k s; ub ltac:(apply um_vget); intros x _; ub ltac:(apply um_vget); intros y _; ub ltac:(apply um_vget); intros z _; apply um_vset_any).
  intros bp2 _. ub ltac:(apply um_vget). intros x _. ub ltac:(apply um_usets). intros nb2 _. exact I.
Qed.
Lemma um_bezier p t lbz (bz : list (list b64)) bp eb : um (fun _ => True) (elevation_bezier p t lbz bz bp eb).
Proof.
  unfold elevation_bezier. apply um_for. intros i e. ub ltac:(apply um_usets). intros e1 _. apply um_for. intros j s.
  ub ltac:(apply um_get2). intros c _. ub ltac:(apply um_vget). intros b _. ub ltac:(apply um_ugets). intros x _. apply um_usets.
Qed.
Lemma um_pass ph kind lbz cind oldr tr (ua ub den bet : b64) Uh st : 0 <= tr -> um (fun _ => True) (elevation_remove_pass ph kind lbz cind oldr tr ua ub den bet Uh st).
Proof.
  intros Ht. destruct st as [[[[i j] kj] Q] e]. unfold elevation_remove_pass.
  match goal with |- um _ (while_ ?n ?c ?b ?s) => enough (um (fun s' => True /\ c s' = Ok false) (while_ n c b s)) as U by (destruct (while_ n c b s); cbn [um] in *; auto) end.
  apply (um_while (fun _ => True) (fun '(i, j, _, _, _) => j - i - tr)); [|exact I|lia].
  intros [[[[i1 j1] k1] Q1] e1] _. eexists. split; [reflexivity|]. intros G. rewrite Z.gtb_ltb in G. apply Z.ltb_lt in G. split; [lia|].
  ub ltac:(instantiate (1 := fun _ => True)).
  { destruct (i1 <? cind); [|exact I]. ub ltac:(apply um_vget). intros ui _. ub ltac:(apply um_div). intros al _. ub ltac:(apply um_ugets). intros q _. ub ltac:(apply um_ugets). intros q1 _. apply um_usets. }
  intros Q2 _. ub ltac:(instantiate (1 := fun _ => True)).
  { destruct (lbz <=? j1); [|exact I]. ub ltac:(instantiate (1 := fun _ => True)).
    { destruct (j1 - tr <=? kind - ph + oldr); [|exact I]. ub ltac:(apply um_vget). intros uj _. apply um_div. }
    intros g _. ub ltac:(apply um_ugets). intros x _. ub ltac:(apply um_ugets). intros y _. apply um_usets. }
  intros e2 _. cbn [um]. split; [exact I|lia].
Qed.
Lemma um_for_in {S} (body : Z -> S -> outcome S) lo hi s : (forall i s, lo <= i < hi -> um (fun _ => True) (body i s)) -> um (fun _ => True) (for_up lo hi body s).
Proof.
  intros Hb. unfold for_up. assert (forall i s, lo <= i < lo + Z.of_nat (Z.to_nat (hi - lo)) -> um (fun _ => True) (body i s)) as Hb' by (intros; apply Hb; lia). clear Hb. revert Hb'.
  generalize (Z.to_nat (hi - lo)). intros n. revert lo s. induction n as [|n IH]; intros lo s Hb; cbn [loop]; [exact I|]. ub ltac:(apply Hb; lia). intros a _. apply IH. intros i s' Hi. apply Hb. lia.
Qed.
Lemma um_remove ph kind lbz cind oldr (ua ub : b64) Uh Qw eb : um (fun _ => True) (elevation_remove ph kind lbz cind oldr ua ub Uh Qw eb).
Proof.
  unfold elevation_remove. destruct (oldr >? 1); [|exact I]. cbv zeta. ub ltac:(apply um_vget). intros uk _. ub ltac:(apply um_div). intros bet _.
  ub ltac:(apply um_for_in).
  { intros tr [[[f l] Q] e] Hi. ub ltac:(apply um_pass; lia). intros [[[[a b] c] Q1] e1] _. exact I. }
  intros [[[f l] Q] e] _. exact I.
Qed.
Section Mult.
  Variables (K : list b64) (pts : list (vec4 b64)) (p t m i0 i1 : Z) (bz : list (list b64)).
  Let apx (j : Z) : bool := Approx (znth dz K j) (znth dz K (j + 1)) lit_1e_6.
  Hypothesis P1 : 1 <= p.
  Hypothesis Hm : m < len K.
  Hypothesis Hi : p + 1 <= i0 /\ i0 <= i1 /\ i1 < m /\ p < i1 - i0 + 1.
  Hypothesis A0 : apx (i0 - 1) = false.
  Hypothesis A1 : apx i1 = false.
  Hypothesis Ain : forall j, i0 <= j < i1 -> apx j = true.
  Lemma scan_exact b0 : 0 <= b0 <= m -> exists b, elevation_scan K m b0 = Ok b /\ b0 <= b <= m /\ (forall j, b0 <= j < b -> apx j = true) /\ (b < m -> apx b = false).
  Proof.
    intros Hb. unfold elevation_scan. remember (Z.to_nat (m - b0 + 1)) as n eqn:En. assert (m - b0 < Z.of_nat n) as Hn by lia. clear En. revert b0 Hb Hn. induction n as [|n IH]; intros b0 Hb Hn; [lia|].
    cbn [while_]. destruct (Z.ltb_spec b0 m) as [L|L].
    - destruct (vget_ex K b0 ltac:(lia)) as [x Ex]. destruct (vget_ex K (b0 + 1) ltac:(lia)) as [y Ey]. rewrite Ex, Ey. cbn [bind].
      apply (vget_inv dz) in Ex, Ey. destruct Ex as [_ ->], Ey as [_ ->]. fold (apx b0). destruct (apx b0) eqn:Ea; cbn [bind].
      + destruct (IH (b0 + 1) ltac:(lia) ltac:(lia)) as [b [E [H1 [H2 H3]]]]. exists b. split; [exact E|]. split; [lia|]. split; [|exact H3].
        intros j Hj. destruct (Z.eq_dec j b0) as [->|Ne]; [exact Ea|apply H2; lia].
      + exists b0. split; [reflexivity|]. split; [lia|]. split; [intros; lia|]. intros _. exact Ea.
    - cbn [bind]. exists b0. split; [reflexivity|]. split; [lia|]. split; intros; lia.
  Qed.
  Lemma um_step st : 0 <= es_b st <= i0 -> um (fun st' => es_b st < es_b st' <= i0) (elevation_step K pts p t m bz st).
  Proof.
    intros Hb. destruct st as [mh kind r a b0 cind ua Qw Uh bp nb eb]. cbn [es_b] in Hb.
    unfold elevation_step. cbn [es_mh es_kind es_r es_a es_b es_cind es_ua es_Qw es_Uh es_bpts es_nextbpts es_ebpts]. cbv zeta.
    destruct (scan_exact b0 ltac:(lia)) as [b [-> [H1 [H2 H3]]]]. cbn [bind].
    assert ((b0 < i0 /\ b <= i0 - 1) \/ (b0 = i0 /\ b = i1)) as Hc.
    { destruct (Z.eq_dec b0 i0) as [->|Ne].
      - right. split; [reflexivity|]. destruct (Z.lt_trichotomy b i1) as [L|[E|G]]; [|exact E|].
        + rewrite Ain in H3 by lia. specialize (H3 ltac:(lia)). discriminate.
        + rewrite H2 in A1 by lia. discriminate.
      - left. split; [lia|]. destruct (Z_le_gt_dec b (i0 - 1)) as [L|G]; [exact L|]. rewrite H2 in A0 by lia. discriminate. }
    ub ltac:(apply um_vget). intros ub _. ub ltac:(apply um_insert; exact P1). intros [bp1 nb1] _. ub ltac:(apply um_bezier). intros eb1 _. ub ltac:(apply um_remove). intros [Qw1 eb2] _.
    ub ltac:(instantiate (1 := fun _ => True)).
    { destruct (negb (a =? p)); [|exact I]. apply um_for. intros i [U k]. ub ltac:(apply um_vset_any). intros V _. exact I. }
    intros [Uh1 kind1] _. ub ltac:(apply um_for; intros i [Q c]; ub ltac:(apply um_vget); intros e _; ub ltac:(apply um_vset_any); intros V _; exact I). intros [Qw2 cind2] _.
    destruct (Z.ltb_spec b m) as [Lb|Lb]; [|lia].
    ub ltac:(apply um_for; intros i s; ub ltac:(apply um_ugets); intros x _; apply um_vset_any). intros bp2 _.
    destruct Hc as [[L1 L2]|[E1 E2]].
    - ub ltac:(apply um_for; intros i s; ub ltac:(apply um_vget); intros x _; apply um_vset_any). intros bp3 _. cbn [um es_b]. lia.
    - rewrite for_up_first by lia. ub ltac:(instantiate (1 := fun _ => False)); [|contradiction].
      ub ltac:(instantiate (1 := fun _ => False)); [|contradiction]. ub ltac:(apply um_vget). intros x _. pose proof (um_vset bp2 (p - (b - b0 + 1)) x) as V.
      destruct (vset bp2 (p - (b - b0 + 1)) x); cbn [um] in *; try assumption. lia.
  Qed.
  Lemma mult_undefined st fuel : 0 <= es_b st <= i0 -> m - es_b st <= Z.of_nat fuel ->
    exists u, while_ fuel (fun st => Ok (es_b st <? m)) (elevation_step K pts p t m bz) st = Undefined u.
  Proof.
    intros Hb Hf. pose proof (um_while (fun st : estate (T := b64) => 0 <= es_b st <= i0) (fun st => m - es_b st) (fun st => Ok (es_b st <? m)) (elevation_step K pts p t m bz)) as U.
    specialize (U ltac:(intros s Js; exists (es_b s <? m); split; [reflexivity|]; intros L; apply Z.ltb_lt in L; split; [lia|]; pose proof (um_step s Js) as V; destruct (elevation_step K pts p t m bz s); cbn [um] in *; try assumption; lia) fuel st Hb Hf).
    destruct (while_ _ _ _ _) as [s| | |u| |]; cbn [um] in U; try contradiction; [|exists u; reflexivity]. destruct U as [J E]. injection E as E. apply Z.ltb_ge in E. lia.
  Qed.
End Mult.
Lemma adj_ex p (K : list R) x : clamped p K -> (0 < x < 1)%R -> In x K -> exists a0 a, adj K a0 a /\ kf K a = x.
Proof.
  intros C Hx Ix. pose proof (clamped_mono _ _ C) as M. pose proof (cl_len _ _ C) as Lk. pose proof (cl_degree _ _ C) as Dg. apply In_kf in Ix. destruct Ix as [j [Hj Ej]].
  assert (kf K 0 = 0%R) as K0 by (rewrite kf_at by lia; apply (cl_zero _ _ C); lia).
  assert (kf K (len K - 1) = 1%R) as K1 by (rewrite kf_at by lia; apply (cl_one _ _ C); lia).
  assert (forall n, j < len K - Z.of_nat n -> kf K (len K - Z.of_nat n) <> x \/ exists a, j <= a < len K - 1 /\ kf K a = x /\ (kf K a < kf K (a + 1))%R) as Up.
  { induction n as [|n IH]; intros H; [left|].
    - change (Z.of_nat 0) with 0. rewrite Z.sub_0_r. pose proof (M (len K - 1) (len K) ltac:(lia)). lra.
    - destruct (Req_dec (kf K (len K - Z.of_nat (S n))) x) as [E|N]; [|left; exact N]. right. destruct IH as [N|Ex]; [lia| |exact Ex].
      exists (len K - Z.of_nat (S n)). destruct n as [|n].
      + change (Z.of_nat 1) with 1 in *. lra.
      + split; [lia|]. split; [exact E|]. replace (len K - Z.of_nat (S (S n)) + 1) with (len K - Z.of_nat (S n)) by lia. pose proof (M (len K - Z.of_nat (S (S n))) (len K - Z.of_nat (S n)) ltac:(lia)). lra. }
  assert (exists a, j <= a < len K - 1 /\ kf K a = x /\ (kf K a < kf K (a + 1))%R) as [a [Ha [Ea La]]].
  { assert (j < len K - 1) as Jl. { destruct (Z.eq_dec j (len K - 1)) as [->|N]; [lra|lia]. }
    destruct (Up (Z.to_nat (len K - 1 - j))) as [N|Ex]; [lia| |exact Ex]. replace (len K - Z.of_nat (Z.to_nat (len K - 1 - j))) with (j + 1) in N by lia.
    exists j. split; [lia|]. split; [exact Ej|]. pose proof (M j (j + 1) ltac:(lia)). lra. }
  assert (forall n, Z.of_nat n <= j -> kf K (Z.of_nat n) <> x \/ exists a0, 0 <= a0 < j /\ (kf K a0 < x)%R /\ kf K (a0 + 1) = x) as Dn.
  { induction n as [|n IH]; intros H; [left; change (Z.of_nat 0) with 0; lra|]. destruct (Req_dec (kf K (Z.of_nat (S n))) x) as [E|N]; [|left; exact N]. right.
    destruct IH as [N|Ex]; [lia| |exact Ex]. exists (Z.of_nat n). split; [lia|]. pose proof (M (Z.of_nat n) (Z.of_nat (S n)) ltac:(lia)). replace (Z.of_nat n + 1) with (Z.of_nat (S n)) by lia. split; lra. }
  destruct (Dn (Z.to_nat j) ltac:(lia)) as [N|[a0 [Ha0 [La0 Ea0]]]]; [rewrite Z2Nat.id in N by lia; contradiction|].
  exists a0, a. split; [|exact Ea]. repeat split; try lia; try lra. intros i Hi. pose proof (M (a0 + 1) i ltac:(lia)). pose proof (M i a ltac:(lia)). lra.
Qed.
Lemma nr_mult64 p t (K : list b64) pts : sound_knots p K -> len pts = len K - p - 1 -> 1 <= p -> 1 <= t -> p + t <= 29 -> spread (vals K) -> ~ interior_multiplicity_le p (vals K) ->
  exists u, NurbsDegreeElevation K pts p t = Undefined u.
Proof.
  intros Sk L P1 T B Sp Im. pose proof Sk as [Fl C]. pose proof (cl_len _ _ C) as CL. pose proof (cl_degree _ _ C) as CD. rewrite len_vals in CL.
  assert (exists x, (0 < x < 1)%R /\ p < count x (vals K)) as [x [Hx Cx]].
  { apply NNPP. intros N. apply Im. intros x Hx. destruct (Z_le_gt_dec (count x (vals K)) p) as [|G]; [assumption|]. exfalso. apply N. exists x. split; [exact Hx|lia]. }
  destruct (adj_ex p (vals K) x C Hx) as [a0 [a [A Ea]]]; [apply count_In; lia|].
  pose proof (adj_count p _ C a0 a A) as Ca. rewrite Ea in Ca. destruct A as [B0 [B2 [La Eq]]]. pose proof (brk_range p _ C _ B0) as R0. pose proof (brk_range p _ C _ B2) as R2. rewrite len_vals in R0, R2.
  assert (forall j, 0 <= j < len K - 1 -> (kf (vals K) j = kf (vals K) (j + 1) -> Approx (znth dz K j) (znth dz K (j + 1)) lit_1e_6 = true) /\
    (kf (vals K) j <> kf (vals K) (j + 1) -> Approx (znth dz K j) (znth dz K (j + 1)) lit_1e_6 = false)) as Ap.
  { intros j Hj. destruct (vget_ex K j ltac:(lia)) as [y Ey]. destruct (vget_ex K (j + 1) ltac:(lia)) as [z Ez]. destruct (vget_vals K j y Ey) as [_ Vy]. destruct (vget_vals K (j + 1) z Ez) as [_ Vz].
    rewrite <- (Approx_agree p K j (val y) (val z) (znth dz K j) (znth dz K (j + 1)) Sk Sp Vy Vz).
    2,3: apply (vget_inv dz) in Ey, Ez; destruct Ey as [_ Ey], Ez as [_ Ez].
    - destruct (vget_at _ _ _ Vy) as [_ Ay]. destruct (vget_at _ _ _ Vz) as [_ Az]. destruct (spread_next p (vals K) j C Sp ltac:(lia) ltac:(rewrite len_vals; lia)) as [Q|Q].
      + split; intros H; [apply Approx_R; rewrite Ay, Az, Q; unfold close; rewrite Rminus_eq_0, Rabs_R0; lra|]. exfalso. apply H. rewrite !kf_at by (rewrite len_vals; lia). exact Q.
      + split; intros H.
        * exfalso. apply Q. rewrite !kf_at in H by (rewrite len_vals; lia). rewrite H. unfold close. rewrite Rminus_eq_0, Rabs_R0. lra.
        * destruct (Approx (val y) (val z) lit_1e_6) eqn:E; [|reflexivity]. apply Approx_R in E. rewrite Ay, Az in E. contradiction.
    - destruct (vget_ex K j ltac:(lia)) as [y' Ey']. rewrite Ey'. f_equal. apply (vget_inv dz) in Ey'. apply Ey'.
    - destruct (vget_ex K (j + 1) ltac:(lia)) as [y' Ey']. rewrite Ey'. f_equal. apply (vget_inv dz) in Ey'. apply Ey'. }
  set (i0 := a0 + 1). set (hp := map ToHomo pts). assert (len hp = len K - p - 1) as Lh by (unfold hp; rewrite len_map; exact L).
  assert (um (fun _ => False) (NurbsDegreeElevation K pts p t)) as U; [|destruct (NurbsDegreeElevation K pts p t) as [s| | |u| |]; cbn [um] in U; try contradiction; exists u; reflexivity].
  unfold NurbsDegreeElevation. destruct (Z.leb_spec 1 t); [|lia]. cbn [assert_ bind]. fold hp. cbv zeta.
  ub ltac:(instantiate (1 := fun _ => True)).
  { destruct (bezalfs_ok p t ltac:(lia) T B) as [bzm [Ez _]]. pose proof (sim_bezalfs (T1 := R) (T2 := b64) R_div b64_div p t) as Sb. rewrite Ez in Sb.
    inversion Sb as [s s' F E1 E2| | | | | |m N E]; [exact I|exfalso; apply N; exact total_b64]. }
  intros bz _. ub ltac:(apply um_vget). intros ua _. assert (forall A n, 0 <= n -> um (fun _ => True) (uninit A n)) as Un.
  { intros A n Hn. destruct (uninit_spec A n Hn) as [q [-> _]]. exact I. }
  ub ltac:(apply Un; lia). intros Q _. ub ltac:(apply um_vget). intros p0 _. ub ltac:(apply um_usets). intros Q1 _.
  destruct (vmake_spec ((len hp - 1 + t) * 2 + (p + t) + 1) (n0 : b64) ltac:(lia)) as [U0 [-> _]]. cbn [bind].
  ub ltac:(apply um_for; intros i s; apply um_vset_any). intros U1 _.
  destruct (tabulate_spec 0 (p + 1) (fun i => vget hp i) (fun i => znth (Vec4 dz dz dz dz) hp i) ltac:(lia)) as [bp [-> _]].
  { intros i Hi. destruct (vget_ex hp i ltac:(lia)) as [y Ey]. rewrite Ey. f_equal. apply (vget_inv (Vec4 dz dz dz dz)) in Ey. apply Ey. }
  cbn [bind]. ub ltac:(apply Un; lia). intros nb _. ub ltac:(apply Un; lia). intros eb _.
  destruct (mult_undefined K hp p t (len hp - 1 + p + 1) i0 a bz P1 ltac:(lia) ltac:(unfold i0; lia)) with (st := ES (p + t) (p + t + 1) (-1) p (p + 1) 1 ua Q1 U1 bp nb eb) (fuel := Z.to_nat (len hp - 1 + p + 1)) as [u Eu].
  - unfold i0. apply Ap; [lia|]. replace (a0 + 1 - 1) with a0 by lia. destruct B0 as [_ B0]. lra.
  - apply Ap; [lia|]. destruct B2 as [_ B2]. lra.
  - intros j Hj. unfold i0 in Hj. apply Ap; [lia|]. rewrite (Eq j), (Eq (j + 1)) by lia. reflexivity.
  - cbn [es_b]. unfold i0. lia.
  - cbn [es_b]. lia.
  - rewrite Eu. exact I.
Qed.

(** ** The whole picture *)
Lemma nurbs_degree0 t (K : list b64) pts : 1 <= len K -> 1 <= len pts -> 1 <= t <= 29 -> NurbsDegreeElevation K pts 0 t = Throw LengthError.
Proof.
  intros LK L T. unfold NurbsDegreeElevation. destruct (Z.leb_spec 1 t); [|lia]. cbn [assert_ bind]. cbv zeta. set (hp := map ToHomo pts). assert (len hp = len pts) as Lh by (unfold hp; apply len_map).
  assert (exists bz : list (list b64), elevation_bezalfs 0 t = Ok bz) as [bz ->].
  { destruct (bezalfs_ok 0 t ltac:(lia) ltac:(lia) ltac:(lia)) as [bzm [Ez _]]. pose proof (sim_bezalfs (T1 := R) (T2 := b64) R_div b64_div 0 t) as Sb. rewrite Ez in Sb.
    inversion Sb as [s s' F E1 E2| | | | | |m N E]; [eauto|exfalso; apply N; exact total_b64]. }
  cbn [bind]. destruct (vget_ex K 0 ltac:(lia)) as [ua ->]. cbn [bind]. destruct (uninit_spec (vec4 b64) ((len hp - 1 + t) * 2) ltac:(lia)) as [Q [-> [LQ _]]]. cbn [bind].
  destruct (vget_ex hp 0 ltac:(lia)) as [p0 Ep0]. rewrite Ep0. cbn [bind]. destruct (uset_spec Q 0 p0 ltac:(lia)) as [Q1 [-> _]]. cbn [bind].
  destruct (vmake_spec ((len hp - 1 + t) * 2 + (0 + t) + 1) (n0 : b64) ltac:(lia)) as [U0 [-> [LU _]]]. cbn [bind].
  match goal with |- context [for_up 0 (0 + t + 1) ?bo U0] =>
    destruct (for_up_inv (fun i (u : list b64) => len u = len U0) 0 (0 + t + 1) bo U0) as [U1 [-> _]] end.
  { lia. } { reflexivity. } { intros i u Hi Lu. destruct (vset_spec u i ua ltac:(lia)) as [u' [E [L' _]]]. exists u'. split; [exact E|lia]. }
  cbn [bind]. destruct (tabulate_spec 0 (0 + 1) (fun i => vget hp i) (fun _ => p0) ltac:(lia)) as [bp [-> _]].
  { intros i Hi. replace i with 0 by lia. exact Ep0. }
  reflexivity.
Qed.
Lemma nurbs_exact p t (K : list b64) pts : sound_knots p K -> len pts = len K - p - 1 -> spread (vals K) ->
  (t < 1 -> NurbsDegreeElevation K pts p t = AssertFail) /\
  (1 <= t -> 30 <= p + t -> NurbsDegreeElevation K pts p t = Undefined IntOverflow) /\
  (1 <= t -> p + t <= 29 -> p = 0 -> NurbsDegreeElevation K pts p t = Throw LengthError) /\
  (1 <= t -> p + t <= 29 -> 1 <= p -> ~ interior_multiplicity_le p (vals K) -> exists u, NurbsDegreeElevation K pts p t = Undefined u) /\
  (1 <= t -> p + t <= 29 -> 1 <= p -> interior_multiplicity_le p (vals K) -> 2 * (len pts - 1 + t) < len pts + t * spans (vals K) -> NurbsDegreeElevation K pts p t = Undefined OutOfBounds) /\
  (1 <= t -> p + t <= 29 -> 1 <= p -> interior_multiplicity_le p (vals K) -> len pts + t * spans (vals K) <= 2 * (len pts - 1 + t) -> exists r, NurbsDegreeElevation K pts p t = Ok r).
Proof.
  intros Sk L Sp. pose proof Sk as [_ C]. pose proof (cl_len _ _ C) as CL. pose proof (cl_degree _ _ C) as CD. rewrite len_vals in CL. repeat split; intros.
  - unfold NurbsDegreeElevation. destruct (Z.leb_spec 1 t); [lia|]. reflexivity.
  - unfold NurbsDegreeElevation. destruct (Z.leb_spec 1 t); [|lia]. cbn [assert_ bind]. cbv zeta. rewrite bezalfs_overflow by lia. reflexivity.
  - subst p. apply nurbs_degree0; lia.
  - apply nr_mult64; assumption.
  - apply buffers_short64; try assumption. lia.
  - destruct (elevation64 p t K pts Sk L) as [k [q [E _]]]; [|eauto]. eapply elevatable0_of; eassumption.
Qed.
Lemma nurbs_iff p t (K : list b64) pts : sound_knots p K -> len pts = len K - p - 1 -> spread (vals K) ->
  (exists r, NurbsDegreeElevation K pts p t = Ok r) ->
  1 <= p /\ 1 <= t /\ p + t <= 29 /\ interior_multiplicity_le p (vals K) /\ len pts + t * spans (vals K) <= 2 * (len pts - 1 + t).
Proof.
  intros Sk L Sp [r E]. pose proof Sk as [_ C]. pose proof (cl_degree _ _ C) as CD. destruct (nurbs_exact p t K pts Sk L Sp) as [H1 [H2 [H3 [H4 [H5 _]]]]].
  destruct (Z_lt_le_dec t 1) as [|T]; [rewrite H1 in E by assumption; discriminate|]. destruct (Z_le_gt_dec (p + t) 29) as [B|]; [|rewrite H2 in E by lia; discriminate].
  destruct (Z.eq_dec p 0) as [|N]; [rewrite H3 in E by assumption; discriminate|]. assert (1 <= p) as P1 by lia.
  destruct (classic (interior_multiplicity_le p (vals K))) as [Im|Im]; [|destruct (H4 T B P1 Im) as [u Eu]; congruence].
  destruct (Z_le_gt_dec (len pts + t * spans (vals K)) (2 * (len pts - 1 + t))) as [Bf|Bf]; [auto|]. rewrite H5 in E by (assumption || lia). discriminate.
Qed.
Lemma C106_exact_lemma (c : curve b64) t : sound_curve c -> spread (vals (Knots c)) ->
  ((exists d, Curve_ElevateDegree c t = Ok d) <->
   1 <= Degree c /\ 1 <= t /\ Degree c + t <= 29 /\ interior_multiplicity_le (Degree c) (vals (Knots c)) /\
   len (ControlPoints c) + t * spans (vals (Knots c)) <= 2 * (len (ControlPoints c) - 1 + t)).
Proof.
  intros [Sk Cn] Sp. split.
  - intros [d E]. apply nurbs_iff; try assumption. unfold Curve_ElevateDegree in E. destruct (1 <=? t); [|discriminate]. cbn [assert_ bind] in E.
    destruct (NurbsDegreeElevation _ _ _ _) as [r| | | | |]; try discriminate. eauto.
  - intros [P1 [T [B [Im Bf]]]]. destruct (C105_elevate_lemma c t (conj Sk Cn) P1 T B Im Sp Bf) as [d [E _]]. eauto.
Qed.
Lemma curve_elevate (c : curve b64) t : Curve_ElevateDegree c t = bind (NurbsDegreeElevation (Knots c) (ControlPoints c) (Degree c) t) (fun '(degree, knots, points) => Ok (Curve degree knots points)).
Proof. unfold Curve_ElevateDegree, NurbsDegreeElevation. destruct (1 <=? t); reflexivity. Qed.
Lemma C106_fails_lemma (c : curve b64) t : sound_curve c -> spread (vals (Knots c)) ->
  (t < 1 -> Curve_ElevateDegree c t = AssertFail) /\
  (1 <= t -> 30 <= Degree c + t -> Curve_ElevateDegree c t = Undefined IntOverflow) /\
  (1 <= t <= 29 -> Degree c = 0 -> Curve_ElevateDegree c t = Throw LengthError) /\
  (1 <= t -> Degree c + t <= 29 -> 1 <= Degree c -> ~ interior_multiplicity_le (Degree c) (vals (Knots c)) -> exists u, Curve_ElevateDegree c t = Undefined u) /\
  (1 <= t -> Degree c + t <= 29 -> 1 <= Degree c -> interior_multiplicity_le (Degree c) (vals (Knots c)) ->
   2 * (len (ControlPoints c) - 1 + t) < len (ControlPoints c) + t * spans (vals (Knots c)) -> Curve_ElevateDegree c t = Undefined OutOfBounds).
Proof.
  intros [Sk Cn] Sp. destruct (nurbs_exact (Degree c) t (Knots c) (ControlPoints c) Sk Cn Sp) as [H1 [H2 [H3 [H4 [H5 _]]]]]. rewrite curve_elevate. repeat split; intros.
  - rewrite H1 by assumption. reflexivity.
  - rewrite H2 by assumption. reflexivity.
  - rewrite H3 by (assumption || lia). reflexivity.
  - destruct H4 as [u ->]; try assumption. exists u. reflexivity.
  - rewrite H5 by assumption. reflexivity.
Qed.
Lemma for_up_ok_first {S} lo hi (body : Z -> S -> outcome S) s r : lo < hi -> for_up lo hi body s = Ok r -> exists s', body lo s = Ok s'.
Proof. intros L. rewrite for_up_first by exact L. destruct (body lo s); cbn [bind]; try discriminate. eauto. Qed.
Lemma C106_U_lemma (s : surface b64) t : sound_surface s -> spread (vals (KnotsU s)) -> (UCount (Net s) + t) * VCount (Net s) <= INT_MAX ->
  ((exists d, Surface_ElevateDegreeU s t = Ok d) <-> 1 <= DegreeU s /\ 1 <= t /\ DegreeU s + t <= 29 /\ UCount (Net s) = DegreeU s + 1).
Proof.
  intros W Sp Fit. split.
  - intros [d E]. pose proof E as E'. pose proof W as [Sku [Skv [Cu [Cv Ln]]]]. pose proof Sku as [_ C]. pose proof Skv as [_ Cw].
    pose proof (cl_len _ _ C) as L1. pose proof (cl_degree _ _ C). pose proof (cl_len _ _ Cw) as L2. pose proof (cl_degree _ _ Cw). rewrite len_vals in L1, L2.
    destruct (full_grid_is (Net s)) as [f G]; [split; [lia|split; [lia|exact Ln]]|].
    unfold Surface_ElevateDegreeU in E. destruct (grid_uninit _ _) as [g| | | | |]; try discriminate. cbn [bind] in E.
    match type of E with bind ?m _ = _ => destruct m as [r| | | | |] eqn:Er; try discriminate end. apply for_up_ok_first in Er; [|lia]. destruct Er as [s' Es].
    rewrite (Grid_GetV_ok _ _ _ _ 0 G) in Es by lia. cbn [bind] in Es. match type of Es with bind ?m _ = _ => destruct m as [r1| | | | |] eqn:En; try discriminate end.
    destruct (nurbs_iff (DegreeU s) t (KnotsU s) (map (fun i => f i 0) (zrange 0 (UCount (Net s)))) Sku) as [P1 [T [B [Im Bf]]]]; [rewrite len_map, len_zrange; lia|exact Sp|eauto|].
    rewrite len_map, len_zrange, Z.sub_0_r, Z.max_r in Bf by lia. repeat (split; [assumption|]). destruct (Z.eq_dec (UCount (Net s)) (DegreeU s + 1)) as [|N]; [assumption|].
    rewrite (C105_manyU_lemma s t W N P1 T B Im Sp Bf Fit) in E'. discriminate.
  - intros [P1 [T [B Bz]]]. destruct (C105_U_lemma s t W Bz P1 T B Fit) as [d [E _]]. eauto.
Qed.
Lemma C106_V_lemma (s : surface b64) t : sound_surface s -> spread (vals (KnotsV s)) -> UCount (Net s) * (VCount (Net s) + t) <= INT_MAX ->
  ((exists d, Surface_ElevateDegreeV s t = Ok d) <-> 1 <= DegreeV s /\ 1 <= t /\ DegreeV s + t <= 29 /\ VCount (Net s) = DegreeV s + 1).
Proof.
  intros W Sp Fit. split.
  - intros [d E]. pose proof E as E'. pose proof W as [Sku [Skv [Cu [Cv Ln]]]]. pose proof Sku as [_ C]. pose proof Skv as [_ Cw].
    pose proof (cl_len _ _ C) as L1. pose proof (cl_degree _ _ C). pose proof (cl_len _ _ Cw) as L2. pose proof (cl_degree _ _ Cw). rewrite len_vals in L1, L2.
    destruct (full_grid_is (Net s)) as [f G]; [split; [lia|split; [lia|exact Ln]]|].
    unfold Surface_ElevateDegreeV in E. destruct (grid_uninit _ _) as [g| | | | |]; try discriminate. cbn [bind] in E.
    match type of E with bind ?m _ = _ => destruct m as [r| | | | |] eqn:Er; try discriminate end. apply for_up_ok_first in Er; [|lia]. destruct Er as [s' Es].
    rewrite (Grid_GetU_ok _ _ _ _ 0 G) in Es by lia. cbn [bind] in Es. match type of Es with bind ?m _ = _ => destruct m as [r1| | | | |] eqn:En; try discriminate end.
    destruct (nurbs_iff (DegreeV s) t (KnotsV s) (map (f 0) (zrange 0 (VCount (Net s)))) Skv) as [P1 [T [B [Im Bf]]]]; [rewrite len_map, len_zrange; lia|exact Sp|eauto|].
    rewrite len_map, len_zrange, Z.sub_0_r, Z.max_r in Bf by lia. repeat (split; [assumption|]). destruct (Z.eq_dec (VCount (Net s)) (DegreeV s + 1)) as [|N]; [assumption|].
    rewrite (C105_manyV_lemma s t W N P1 T B Im Sp Bf Fit) in E'. discriminate.
  - intros [P1 [T [B Bz]]]. destruct (C105_V_lemma s t W Bz P1 T B Fit) as [d [E _]]. eauto.
Qed.
