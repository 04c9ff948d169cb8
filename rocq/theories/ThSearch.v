(** Lemmas on the parameter searches (C44, C45, C54) over the reals. *)
From Coq Require Import Reals ZArith List Lra Lia QArith Qreals Bool.
From Verif Require Import Outcome Num ModelCore ModelBasis ModelCurve ModelSurface SpecCore SpecBasis SpecCurve SpecSurface SpecSearch
  SpecDeriv ThReal ThB64 ThOutcome ThCurve ThSurface2 ThGeom ThCurveWit ThSurfWit ThDerivs ThDerivs2.
Import ListNotations.
Open Scope R_scope.

Definition total_on {A B} (D : A -> Prop) (f : A -> outcome B) : Prop := forall x, D x -> exists y, f x = Ok y.

Lemma clamp_unit (x : R) : unit_interval (nclamp x n0 n1).
Proof. unfold unit_interval. norm_R. bool_R; lra. Qed.

Lemma dist3_norm (a b : vec3 R) : v3norm (v3sub a b) = dist3 a b.
Proof. unfold v3norm, v3dot, v3sub, dist3. norm_R. reflexivity. Qed.

(** ** The one-dimensional quasi-Newton loop *)
Section Loop1.
  Variables (Rn fi : R -> outcome R) (ls : nat) (eps mx : R).
  Hypothesis HR : total_on unit_interval Rn.
  Hypothesis Hf : total_on unit_interval fi.

  Lemma line_search_ok u res H g n : forall a, exists v, line_search Rn u res H g n a = Ok v /\ unit_interval v.
  Proof using HR.
    induction n as [|n IH]; intros a; cbn [line_search].
    - eexists; split; [reflexivity|apply clamp_unit].
    - destruct (HR _ (clamp_unit (nsub u (nmul (nmul a H) g)))) as [y Ey]. rewrite Ey. cbn [bind].
      destruct (nleb _ _); [eexists; split; [reflexivity|apply clamp_unit]|apply IH].
  Qed.

  Lemma rho_ok (y : R) : y <> 0 -> ndiv n1 y = Ok (1 / y).
  Proof using. intros Hy. norm_R. apply Rdivo_ok, Hy. Qed.

  Lemma curvature_nz (y : R) (A : Type) (a b : A) :
    snd (if nltb (nabs y) (nlit (1 # 10000000000000000)) then (a, nlit (1 # 10000000000)) else (b, y)) <> 0.
  Proof using.
    norm_R. rewrite Rabs_if. bool_R; cbn [snd]; unfold Q2R in *; cbn [Qnum Qden] in *.
    - lra.
    - intros ->. rewrite Rabs_R0 in *. lra.
  Qed.

  Lemma search_loop_ok fuel : forall count u res H, unit_interval u -> mx <= IZR count + INR fuel ->
    exists v, search_loop Rn fi ls eps mx fuel count u res H = Ok v /\ unit_interval v.
  Proof using HR Hf.
    induction fuel as [|fuel IH]; intros count u res H Hu Hm; cbn [search_loop]; norm_R;
      (destruct (Rltb_spec res eps); [eexists; split; [reflexivity|assumption]|]);
      (destruct (Rleb_spec mx (IZR count)); [eexists; split; [reflexivity|assumption]|]).
    - exfalso. cbn [INR] in Hm. lra.
    - destruct (Hf u Hu) as [g Eg]. rewrite Eg. cbn [bind].
      destruct (line_search_ok u res H g ls 1) as [v [Ev Hv]]. rewrite Ev. cbn [bind].
      destruct (Hf v Hv) as [g' Eg']. rewrite Eg'. cbn [bind].
      pose proof (curvature_nz ((g' - g) * (v - u)) R 1 H) as Nz. norm_R.
      destruct (if Rltb (if Rltb ((g' - g) * (v - u)) 0 then - ((g' - g) * (v - u)) else (g' - g) * (v - u))
                     (Q2R (1 # 10000000000000000)) then _ else _) as [H' y'].
      cbn [snd] in Nz. rewrite Rdivo_ok by assumption. cbn [bind].
      destruct (HR v Hv) as [r Er]. rewrite Er. cbn [bind].
      apply IH; [exact Hv|]. rewrite S_INR in Hm. rewrite plus_IZR. lra.
  Qed.

  Lemma search_loop_early fuel : forall count u res H v, IZR count + INR fuel < mx ->
    (res < eps -> Rn u = Ok res) ->
    search_loop Rn fi ls eps mx fuel count u res H = Ok v -> exists r, Rn v = Ok r /\ r < eps.
  Proof using.
    induction fuel as [|fuel IH]; intros count u res H v Hm Hr; cbn [search_loop]; norm_R;
      (destruct (Rltb_spec res eps); [intros [= <-]; exists res; split; auto|]);
      (destruct (Rleb_spec mx (IZR count)); [exfalso; try pose proof (pos_INR fuel); rewrite ?S_INR in Hm; cbn [INR] in Hm; lra|]).
    - discriminate.
    - intros E. bindinv E. bindinv E. bindinv E.
      destruct (if Rltb _ _ then _ else _) as [H' y'] in E.
      bindinv E. bindinv E. apply IH in E; [exact E| |auto].
      rewrite S_INR in Hm. rewrite plus_IZR. lra.
  Qed.

  Lemma search_loop_mono fuel fuel' : forall count u res H v, (fuel <= fuel')%nat ->
    search_loop Rn fi ls eps mx fuel count u res H = Ok v -> search_loop Rn fi ls eps mx fuel' count u res H = Ok v.
  Proof using.
    revert fuel'. induction fuel as [|fuel IH]; intros fuel' count u res H v Hm.
    - destruct fuel'; cbn [search_loop]; destruct (nltb res eps); auto; destruct (nleb mx _); auto; discriminate.
    - destruct fuel' as [|fuel']; [lia|]. cbn [search_loop]. destruct (nltb res eps); auto. destruct (nleb mx _); auto.
      intros E. apply bind_Ok in E. destruct E as [g [Eg E]]. rewrite Eg. cbn [bind].
      apply bind_Ok in E. destruct E as [w [Ew E]]. rewrite Ew. cbn [bind].
      apply bind_Ok in E. destruct E as [g' [Eg' E]]. rewrite Eg'. cbn [bind].
      match goal with |- (let '(_, _) := ?X in _) = _ => destruct X as [H' y'] end.
      apply bind_Ok in E. destruct E as [rho [Er E]]. rewrite Er. cbn [bind].
      apply bind_Ok in E. destruct E as [q [Eq E]]. rewrite Eq. cbn [bind].
      apply IH with (fuel' := fuel') in E; [|lia]. exact E.
  Qed.
End Loop1.

(** ** The two-dimensional quasi-Newton loop *)
Lemma clamp_square (x : R * R) : unit_square (v2clamp x).
Proof. split; apply clamp_unit. Qed.
Section Loop2.
  Variables (Rn : R * R -> outcome R) (Ki : R * R -> outcome (R * R)) (eps mx : R).
  Hypothesis HR : total_on unit_square Rn.
  Hypothesis Hf : total_on unit_square Ki.

  Lemma line_search2_ok u res H g n : forall a, exists v, line_search2 Rn u res H g n a = Ok v /\ unit_square v.
  Proof using HR.
    induction n as [|n IH]; intros a; cbn [line_search2].
    - eexists; split; [reflexivity|apply clamp_square].
    - match goal with |- context [Rn ?x] => destruct (HR x (clamp_square _)) as [y Ey] end. rewrite Ey. cbn [bind].
      destruct (nleb _ _); [eexists; split; [reflexivity|apply clamp_square]|apply IH].
  Qed.

  Lemma search_loop2_ok fuel : forall count u res H, unit_square u -> mx <= IZR count + INR fuel ->
    exists v, search_loop2 Rn Ki eps mx fuel count u res H = Ok v /\ unit_square v.
  Proof using HR Hf.
    induction fuel as [|fuel IH]; intros count u res H Hu Hm; cbn [search_loop2];
      change (@nltb R Num_R res eps) with (Rltb res eps);
      change (@nleb R Num_R mx (nofZ count)) with (Rleb mx (IZR count));
      (destruct (Rltb_spec res eps); [eexists; split; [reflexivity|assumption]|]);
      (destruct (Rleb_spec mx (IZR count)); [eexists; split; [reflexivity|assumption]|]).
    - exfalso. cbn [INR] in Hm. lra.
    - destruct (Hf u Hu) as [g Eg]. rewrite Eg. cbn [bind].
      destruct (line_search2_ok u res H g LS_MAX n1) as [v [Ev Hv]]. rewrite Ev. cbn [bind].
      destruct (Hf v Hv) as [g' Eg']. rewrite Eg'. cbn [bind].
      pose proof (curvature_nz (v2dot (v2sub g' g) (v2sub v u)) _ m2id H) as Nz.
      match goal with |- context [let '(_, _) := ?X in _] => destruct X as [H' y'] end.
      cbn [snd] in Nz. rewrite rho_ok by assumption. cbn [bind].
      destruct (HR v Hv) as [r Er]. rewrite Er. cbn [bind].
      apply IH; [exact Hv|]. rewrite S_INR in Hm. rewrite plus_IZR. lra.
  Qed.

  Lemma search_loop2_early fuel : forall count u res H v, IZR count + INR fuel < mx ->
    (res < eps -> Rn u = Ok res) ->
    search_loop2 Rn Ki eps mx fuel count u res H = Ok v -> exists r, Rn v = Ok r /\ r < eps.
  Proof using.
    induction fuel as [|fuel IH]; intros count u res H v Hm Hr; cbn [search_loop2];
      change (@nltb R Num_R res eps) with (Rltb res eps);
      change (@nleb R Num_R mx (nofZ count)) with (Rleb mx (IZR count));
      (destruct (Rltb_spec res eps); [intros [= <-]; exists res; split; auto|]);
      (destruct (Rleb_spec mx (IZR count)); [exfalso; try pose proof (pos_INR fuel); rewrite ?S_INR in Hm; cbn [INR] in Hm; lra|]).
    - discriminate.
    - intros E. bindinv E. bindinv E. bindinv E.
      match type of E with (let '(_, _) := ?X in _) = _ => destruct X as [H' y'] end.
      bindinv E. bindinv E. apply IH in E; [exact E| |auto].
      rewrite S_INR in Hm. rewrite plus_IZR. lra.
  Qed.

  Lemma search_loop2_mono fuel fuel' : forall count u res H v, (fuel <= fuel')%nat ->
    search_loop2 Rn Ki eps mx fuel count u res H = Ok v -> search_loop2 Rn Ki eps mx fuel' count u res H = Ok v.
  Proof using.
    revert fuel'. induction fuel as [|fuel IH]; intros fuel' count u res H v Hm.
    - destruct fuel'; cbn [search_loop2]; destruct (nltb res eps); auto; destruct (nleb mx _); auto; discriminate.
    - destruct fuel' as [|fuel']; [lia|]. cbn [search_loop2]. destruct (nltb res eps); auto. destruct (nleb mx _); auto.
      intros E. apply bind_Ok in E. destruct E as [g [Eg E]]. rewrite Eg. cbn [bind].
      apply bind_Ok in E. destruct E as [w [Ew E]]. rewrite Ew. cbn [bind].
      apply bind_Ok in E. destruct E as [g' [Eg' E]]. rewrite Eg'. cbn [bind].
      match goal with |- (let '(_, _) := ?X in _) = _ => destruct X as [H' y'] end.
      apply bind_Ok in E. destruct E as [rho [Er E]]. rewrite Er. cbn [bind].
      apply bind_Ok in E. destruct E as [q [Eq E]]. rewrite Eq. cbn [bind].
      apply IH with (fuel' := fuel') in E; [|lia]. exact E.
  Qed.
End Loop2.

(** ** Bisection *)
Section Bisect.
  Variables (Rn : R -> outcome R) (f : R -> R) (eps : R) (go : Z -> bool).
  Hypothesis HR : forall u, unit_interval u -> Rn u = Ok (f u).
  Hypothesis He : 0 <= eps.

  Lemma half_ok (x : R) : ndiv x (nofZ 2) = Ok (x / 2).
  Proof using. norm_R. apply Rdivo_ok. lra. Qed.

  (** One round in plain terms. *)
  Definition left_of (low mid : R) := if Rltb (mid - eps) low then low else mid - eps.
  Definition right_of (high mid : R) := if Rltb high (mid + eps) then high else mid + eps.
  Lemma left_of_bounds low mid : low <= mid -> low <= left_of low mid <= mid.
  Proof using He. unfold left_of. intros. bool_R; lra. Qed.
  Lemma right_of_bounds high mid : mid <= high -> mid <= right_of high mid <= high.
  Proof using He. unfold right_of. intros. bool_R; lra. Qed.

  Lemma bisect_step fuel count low high : 0 <= low <= high -> high <= 1 -> go count = true ->
    bisect_loop Rn eps go (S fuel) count low high =
    let mid := (low + high) / 2 in
    if Rltb (f (left_of low mid)) (f mid) then bisect_loop Rn eps go fuel (count + 1) low mid
    else if Rltb (f (right_of high mid)) (f mid) then bisect_loop Rn eps go fuel (count + 1) mid high
    else if Rltb (high - low) eps || Rltb (f mid) eps then Ok mid
    else bisect_loop Rn eps go fuel (count + 1) (left_of low mid) (right_of high mid).
  Proof using HR He.
    intros Hl Hh Hg. cbn [bisect_loop]. rewrite Hg. cbn [negb]. rewrite half_ok. cbn [bind].
    norm_R. assert (Hm : low <= (low + high) / 2 <= high) by lra.
    set (mid := (low + high) / 2) in *. cbn zeta.
    fold (left_of low mid). fold (right_of high mid).
    pose proof (left_of_bounds low mid ltac:(lra)). pose proof (right_of_bounds high mid ltac:(lra)).
    rewrite !HR by (unfold unit_interval; lra). cbn [bind].
    rewrite Rabs_if, Rabs_right by lra. reflexivity.
  Qed.
  Lemma bisect_stop fuel count low high : go count = false -> bisect_loop Rn eps go fuel count low high = Ok ((low + high) / 2).
  Proof using. intros Hg. destruct fuel; cbn [bisect_loop]; rewrite Hg; cbn [negb]; apply half_ok. Qed.

  (** With enough fuel the search ends, in the search interval. *)
  Lemma bisect_ok (last : Z) : (forall k, (last <= k)%Z -> go k = false) ->
    forall fuel count low high, 0 <= low <= high -> high <= 1 -> (last <= count + Z.of_nat fuel)%Z ->
    exists v, bisect_loop Rn eps go fuel count low high = Ok v /\ low <= v <= high.
  Proof using HR He.
    intros Hlast. induction fuel as [|fuel IH]; intros count low high Hl Hh Hc.
    - rewrite bisect_stop by (apply Hlast; lia). eexists; split; [reflexivity|lra].
    - destruct (go count) eqn:Hg; [|rewrite bisect_stop by assumption; eexists; split; [reflexivity|lra]].
      rewrite bisect_step by assumption. cbn zeta. assert (Hm : low <= (low + high) / 2 <= high) by lra.
      set (mid := (low + high) / 2) in *.
      pose proof (left_of_bounds low mid ltac:(lra)). pose proof (right_of_bounds high mid ltac:(lra)).
      destruct (Rltb _ _); [destruct (IH (count + 1)%Z low mid) as [v [Ev Hv]]; [lra|lra|lia|]; exists v; split; [exact Ev|lra]|].
      destruct (Rltb _ _); [destruct (IH (count + 1)%Z mid high) as [v [Ev Hv]]; [lra|lra|lia|]; exists v; split; [exact Ev|lra]|].
      destruct (_ || _); [exists mid; split; [reflexivity|lra]|].
      destruct (IH (count + 1)%Z (left_of low mid) (right_of high mid)) as [v [Ev Hv]]; [lra|lra|lia|].
      exists v; split; [exact Ev|lra].
  Qed.

  (** An early stop: near the target, or in an interval shorter than [eps] on
      which neither neighbour is nearer. *)
  Lemma bisect_early fuel : forall count low high v, 0 <= low <= high -> high <= 1 ->
    (forall k, (k <= count + Z.of_nat fuel)%Z -> go k = true) ->
    bisect_loop Rn eps go fuel count low high = Ok v ->
    f v < eps \/ exists a b, low <= a <= v /\ v <= b <= high /\ b - a < eps /\ f v <= f a /\ f v <= f b.
  Proof using HR He.
    induction fuel as [|fuel IH]; intros count low high v Hl Hh Hc.
    - cbn [bisect_loop]. rewrite Hc by lia. discriminate.
    - rewrite bisect_step by (auto; apply Hc; lia). cbn zeta. assert (Hm : low <= (low + high) / 2 <= high) by lra.
      set (mid := (low + high) / 2) in *.
      pose proof (left_of_bounds low mid ltac:(lra)). pose proof (right_of_bounds high mid ltac:(lra)).
      destruct (Rltb_spec (f (left_of low mid)) (f mid)).
      { intros E. apply IH in E; [|lra|lra|intros; apply Hc; lia]. destruct E as [E|[a [b [? [? ?]]]]]; [now left|].
        right. exists a, b. split; [lra|]. split; [lra|]. assumption. }
      destruct (Rltb_spec (f (right_of high mid)) (f mid)).
      { intros E. apply IH in E; [|lra|lra|intros; apply Hc; lia]. destruct E as [E|[a [b [? [? ?]]]]]; [now left|].
        right. exists a, b. split; [lra|]. split; [lra|]. assumption. }
      destruct (Rltb_spec (high - low) eps); destruct (Rltb_spec (f mid) eps); cbn [orb].
      1-3: intros [= <-].
      + now left.
      + right. exists (left_of low mid), (right_of high mid). repeat split; lra.
      + now left.
      + intros E. apply IH in E; [|lra|lra|intros; apply Hc; lia]. destruct E as [E|[a [b [? [? ?]]]]]; [now left|].
        right. exists a, b. split; [lra|]. split; [lra|]. assumption.
  Qed.

  (** The minimiser of a strictly unimodal distance stays inside. *)
  Lemma bisect_bracket m (last : Z) : strictly_unimodal f m -> 0 < eps -> (forall k, go k = (k <? last)%Z) ->
    forall fuel count low high v, 0 <= low <= high -> high <= 1 -> (0 <= count)%Z -> (count <= last)%Z -> low <= m <= high ->
    high - low <= Rmax (2 * eps) ((1 / 2) ^ Z.to_nat count) ->
    bisect_loop Rn eps go fuel count low high = Ok v ->
    f v < eps \/ Rabs (v - m) <= Rmax eps ((1 / 2) ^ (Z.to_nat last + 1)).
  Proof using HR He.
    intros [Um [Ud Ui]] He' Hgo. induction fuel as [|fuel IH]; intros count low high v Hl Hh H0 Hcl Hm Hw E.
    all: destruct (Z.ltb_spec count last) as [Hlt|Hge];
      [assert (Hg : go count = true) by (rewrite Hgo; apply Z.ltb_lt; lia)
      |assert (Hg : go count = false) by (rewrite Hgo; apply Z.ltb_ge; lia);
       rewrite bisect_stop in E by assumption; injection E as <-; right; assert (count = last) by lia; subst last;
       rewrite pow_add, pow_1; revert Hw; unfold Rmax; destruct (Rle_dec _ _), (Rle_dec _ _); intros; apply Rabs_le; lra].
    - cbn [bisect_loop] in E. rewrite Hg in E. discriminate.
    - rewrite bisect_step in E by assumption. cbn zeta in E.
      assert (Hc : low <= (low + high) / 2 <= high) by lra.
      assert (Hd : high - (low + high) / 2 = (high - low) / 2 /\ (low + high) / 2 - low = (high - low) / 2) by lra.
      assert (Hp : (1 / 2) ^ Z.to_nat (count + 1) = (1 / 2) ^ Z.to_nat count / 2).
      { rewrite Z2Nat.inj_add, pow_add by lia. change (Z.to_nat 1) with 1%nat. rewrite pow_1. lra. }
      set (mid := (low + high) / 2) in *.
      pose proof (left_of_bounds low mid ltac:(lra)) as HL. pose proof (right_of_bounds high mid ltac:(lra)) as HRt.
      assert (Hhalf : (high - low) / 2 <= Rmax (2 * eps) ((1 / 2) ^ Z.to_nat (count + 1))).
      { rewrite Hp. revert Hw. unfold Rmax. destruct (Rle_dec _ _), (Rle_dec _ _); lra. }
      destruct (Rltb_spec (f (left_of low mid)) (f mid)) as [L1|L1].
      { apply IH in E; auto; try lra; try lia.
        destruct (Rle_lt_dec m mid) as [|Hgt]; [lra|]. exfalso.
        destruct (Req_dec (left_of low mid) mid) as [Eq|Ne]; [rewrite Eq in L1; lra|].
        specialize (Ud (left_of low mid) mid ltac:(lra) ltac:(lra) ltac:(lra)). lra. }
      destruct (Rltb_spec (f (right_of high mid)) (f mid)) as [L2|L2].
      { apply IH in E; auto; try lra; try lia.
        destruct (Rle_lt_dec mid m) as [|Hgt]; [lra|]. exfalso.
        destruct (Req_dec (right_of high mid) mid) as [Eq|Ne]; [rewrite Eq in L2; lra|].
        specialize (Ui mid (right_of high mid) ltac:(lra) ltac:(lra) ltac:(lra)). lra. }
      destruct (Rltb_spec (high - low) eps) as [L3|L3]; destruct (Rltb_spec (f mid) eps) as [L4|L4]; cbn [orb] in E.
      1-3: injection E as <-.
      + now left.
      + right. pose proof (Rmax_l eps ((1 / 2) ^ (Z.to_nat last + 1))). apply Rabs_le. lra.
      + now left.
      + assert (left_of low mid <= m).
        { destruct (Rle_lt_dec (left_of low mid) m) as [|Hgt]; [lra|]. exfalso.
          destruct (Rle_lt_dec mid (left_of low mid)) as [Hq|Hq].
          - unfold left_of in *. revert Hq Hgt. bool_R; lra.
          - specialize (Ui (left_of low mid) mid ltac:(lra) Hq ltac:(lra)). lra. }
        assert (m <= right_of high mid).
        { destruct (Rle_lt_dec m (right_of high mid)) as [|Hgt]; [lra|]. exfalso.
          destruct (Rle_lt_dec (right_of high mid) mid) as [Hq|Hq].
          - unfold right_of in *. revert Hq Hgt. bool_R; lra.
          - specialize (Ud mid (right_of high mid) ltac:(lra) Hq ltac:(lra)). lra. }
        apply IH in E; auto; try lra; try lia.
        pose proof (Rmax_l (2 * eps) ((1 / 2) ^ Z.to_nat (count + 1))).
        enough (mid - eps <= left_of low mid /\ right_of high mid <= mid + eps) by lra.
        unfold left_of, right_of. bool_R; lra.
  Qed.
End Bisect.

(** With [epsilon = 0] the interval collapses to its midpoint in the first round. *)
Lemma bisect_zero Rn f go : (forall u, unit_interval u -> Rn u = Ok (f u)) -> (forall u, 0 <= f u) ->
  forall fuel count v, bisect_loop Rn 0 go fuel count (1 / 2) (1 / 2) = Ok v -> v = 1 / 2.
Proof.
  intros HR Hf. induction fuel as [|fuel IH]; intros count v E.
  - destruct (go count) eqn:Hg; [cbn [bisect_loop] in E; rewrite Hg in E; discriminate|].
    rewrite (bisect_stop Rn 0 go) in E by assumption. injection E as <-. lra.
  - destruct (go count) eqn:Hg; [|rewrite (bisect_stop Rn 0 go) in E by assumption; injection E as <-; lra].
    rewrite (bisect_step Rn f 0 go HR) in E by (auto; lra). cbn zeta in E.
    replace ((1 / 2 + 1 / 2) / 2) with (1 / 2) in E by lra.
    assert (El : left_of 0 (1 / 2) (1 / 2) = 1 / 2) by (unfold left_of; bool_R; lra).
    assert (Er : right_of 0 (1 / 2) (1 / 2) = 1 / 2) by (unfold right_of; bool_R; lra).
    rewrite El, Er in E. pose proof (Hf (1 / 2)).
    revert E. bool_R; try lra; cbn [orb]; eauto.
Qed.

(** ** Curves *)
Lemma eval_ok c u : wf_curve c -> unit_interval u -> Curve_Evaluate c u = Ok (curve_point c u).
Proof. intros W Hu. apply (C27_lemma c u W). exact Hu. Qed.
Lemma deriv1_ok c u : wf_curve c -> unit_interval u -> exists d, Curve_EvaluateDerivative c u 1 = Ok d.
Proof.
  intros W Hu. destruct (C31_lemma c u 1 W Hu ltac:(lia)) as [j [res [_ [_ [_ [_ G]]]]]].
  destruct (G 1%Z ltac:(lia)) as [v [_ [E _]]]. eauto.
Qed.

Lemma C44_lemma c P init eps mx : wf_curve c -> unit_interval init ->
  (forall n, mx <= INR n -> exists u, Curve_SearchParameter n c P init eps mx = Ok u /\ unit_interval u) /\
  (forall n n' u u', Curve_SearchParameter n c P init eps mx = Ok u -> Curve_SearchParameter n' c P init eps mx = Ok u' -> u' = u) /\
  (forall n u, eps <= dbl_max -> INR n < mx -> Curve_SearchParameter n c P init eps mx = Ok u ->
     unit_interval u /\ dist3 (curve_point c u) P < eps) /\
  (mx <= 0 -> Curve_SearchParameter 0 c P init eps mx = Ok init).
Proof.
  intros W Hi. unfold Curve_SearchParameter. cbn zeta.
  match goal with |- context [search_loop ?r ?f LS_MAX eps mx _ 0 init _ n1] => set (Rn := r); set (fi := f) end.
  assert (ER : forall u, unit_interval u -> Rn u = Ok (dist3 (curve_point c u) P)).
  { intros u Hu. unfold Rn. rewrite eval_ok by assumption. cbn [bind]. now rewrite dist3_norm. }
  assert (HR : total_on unit_interval Rn) by (intros u Hu; rewrite ER by assumption; eauto).
  assert (Hf : total_on unit_interval fi).
  { intros u Hu. unfold fi. rewrite eval_ok by assumption. cbn [bind]. destruct (deriv1_ok c u W Hu) as [d ->]. cbn [bind]. eauto. }
  assert (A : forall n, mx <= INR n -> exists u, search_loop Rn fi LS_MAX eps mx n 0 init DBL_MAX n1 = Ok u /\ unit_interval u).
  { intros n Hn. apply search_loop_ok; auto. lra. }
  assert (M : forall n n' u u', search_loop Rn fi LS_MAX eps mx n 0 init DBL_MAX n1 = Ok u ->
     search_loop Rn fi LS_MAX eps mx n' 0 init DBL_MAX n1 = Ok u' -> u' = u).
  { intros n n' u u' E E'. apply search_loop_mono with (fuel' := Nat.max n n') in E; [|lia].
    apply search_loop_mono with (fuel' := Nat.max n n') in E'; [|lia]. congruence. }
  split; [exact A|]. split; [exact M|]. split.
  - intros n u He Hn E.
    assert (Hu : unit_interval u).
    { destruct (A (Z.to_nat (up mx))) as [u' [E' Hu']].
      - rewrite INR_IZR_INZ. destruct (archimed mx). destruct (Z_le_dec 0 (up mx)).
        + rewrite Z2Nat.id by assumption. lra.
        + pose proof (pos_INR n). assert (up mx < 0)%Z by lia. apply IZR_lt in H2. lra.
      - now rewrite <- (M _ _ _ _ E E'). }
    split; [exact Hu|].
    destruct (search_loop_early Rn fi LS_MAX eps mx n 0 init DBL_MAX n1 u) as [r [Er Hr]]; auto.
    + lra.
    + intros Hlt. exfalso. revert Hlt He. unfold DBL_MAX, dbl_max. norm_R. unfold Q2R. cbn [Qnum Qden].
      rewrite Rinv_1, Rmult_1_r. intros Hlt He. apply (Rlt_not_le _ _ Hlt He).
    + rewrite ER in Er by assumption. injection Er as <-. exact Hr.
  - intros Hm. cbn [search_loop]. destruct (nltb _ _); [reflexivity|]. norm_R. bool_R; [reflexivity|exfalso; lra].
Qed.

Lemma C45_lemma c P eps mx : wf_curve c -> 0 <= eps ->
  exists u, Curve_BinarySearchParameter c P eps mx = Ok u /\ unit_interval u /\
    (0 < eps -> forall m, strictly_unimodal (fun x => dist3 (curve_point c x) P) m ->
       dist3 (curve_point c u) P < eps \/ Rabs (u - m) <= Rmax eps ((1 / 2) ^ (Z.to_nat mx + 1))).
Proof.
  intros W He. unfold Curve_BinarySearchParameter. cbn zeta.
  match goal with |- context [bisect_loop ?r eps ?g] => set (Rn := r); set (go := g) end.
  assert (ER : forall u, unit_interval u -> Rn u = Ok (dist3 (curve_point c u) P)).
  { intros u Hu. unfold Rn. rewrite eval_ok by assumption. cbn [bind]. now rewrite dist3_norm. }
  norm_R.
  destruct (bisect_ok Rn (fun u => dist3 (curve_point c u) P) eps go ER He mx) with (fuel := Z.to_nat mx) (count := 0%Z) (low := 0) (high := 1)
    as [u [Eu Hu]]; try lra; try lia.
  { intros k Hk. unfold go. apply Z.ltb_ge. lia. }
  exists u. split; [exact Eu|]. split; [exact Hu|]. intros He' m Um.
  destruct (Z_le_dec 0 mx) as [Hmx|Hmx].
  - apply (bisect_bracket Rn (fun u => dist3 (curve_point c u) P) eps go ER He m mx Um He' ltac:(intros; reflexivity)) in Eu;
      [exact Eu|lra|lra|lia|lia|destruct Um; lra|].
    change (Z.to_nat 0) with 0%nat. rewrite pow_O. pose proof (Rmax_r (2 * eps) 1). lra.
  - right. replace (Z.to_nat mx) with 0%nat in * by lia. rewrite (bisect_stop Rn eps go) in Eu by (unfold go; apply Z.ltb_ge; lia).
    injection Eu as <-. cbn [Nat.add]. rewrite pow_1. pose proof (Rmax_r eps (1 / 2)). destruct Um as [? _]. apply Rabs_le. lra.
Qed.

Lemma C45_zero_lemma c P mx : wf_curve c -> Curve_BinarySearchParameter c P 0 mx = Ok (1 / 2).
Proof.
  intros W. destruct (C45_lemma c P 0 mx W ltac:(lra)) as [u [Eu _]]. rewrite Eu. f_equal.
  revert Eu. unfold Curve_BinarySearchParameter. cbn zeta.
  match goal with |- context [bisect_loop ?r _ ?g] => set (Rn := r); set (go := g) end.
  assert (ER : forall u, unit_interval u -> Rn u = Ok (dist3 (curve_point c u) P)).
  { intros x Hx. unfold Rn. rewrite eval_ok by assumption. cbn [bind]. now rewrite dist3_norm. }
  assert (Hp : forall u, 0 <= dist3 (curve_point c u) P) by (intros; apply sqrt_pos).
  norm_R. intros E. destruct (go 0%Z) eqn:Hg.
  - destruct (Z.to_nat mx) as [|n]; [cbn [bisect_loop] in E; rewrite Hg in E; discriminate|].
    rewrite (bisect_step Rn _ 0 go ER) in E by (auto; lra). cbn zeta in E.
    replace ((0 + 1) / 2) with (1 / 2) in E by lra.
    assert (El : left_of 0 0 (1 / 2) = 1 / 2) by (unfold left_of; bool_R; lra).
    assert (Er : right_of 0 1 (1 / 2) = 1 / 2) by (unfold right_of; bool_R; lra).
    rewrite El, Er in E. pose proof (Hp (1 / 2)).
    revert E. bool_R; try lra; cbn [orb]. apply (bisect_zero Rn _ go ER Hp).
  - rewrite (bisect_stop Rn 0 go) in E by assumption. injection E as <-. lra.
Qed.

(** ** Surfaces *)
Lemma seval_ok s u v : wf_surface s -> unit_interval u -> unit_interval v -> Surface_Evaluate s u v = Ok (surf_point s u v).
Proof. intros W Hu Hv. apply (C46_lemma s u v W). split; assumption. Qed.
Lemma sderiv_ok s u v k l : wf_surface s -> unit_interval u -> unit_interval v -> (0 <= k <= 1)%Z -> (0 <= l <= 1)%Z ->
  exists d, Surface_EvaluateDerivative s u v k l = Ok d.
Proof.
  intros W Hu Hv Hk Hl.
  destruct (C49_lemma s u v 1 1 W Hu Hv ltac:(lia) ltac:(lia) (binomials_fit_29 1 1 ltac:(lia) ltac:(lia) ltac:(lia)))
    as [ju [jv [res [_ [_ [_ [_ [_ [_ G]]]]]]]]].
  destruct (G k l Hk Hl) as [r [_ [E _]]]. eauto.
Qed.
Lemma DBL_MAX_R : @DBL_MAX R Num_R = dbl_max.
Proof. unfold DBL_MAX, dbl_max. norm_R. unfold Q2R. cbn [Qnum Qden]. now rewrite Rinv_1, Rmult_1_r. Qed.
Lemma fuel_for mx : exists n, mx <= INR n.
Proof.
  exists (Z.to_nat (up mx)). rewrite INR_IZR_INZ. destruct (archimed mx). destruct (Z_le_dec 0 (up mx)).
  - rewrite Z2Nat.id by assumption. lra.
  - assert (Hn : (up mx < 0)%Z) by lia. apply IZR_lt in Hn. pose proof (pos_INR (Z.to_nat (up mx))).
    rewrite INR_IZR_INZ in *. lra.
Qed.

Lemma C54_search_lemma s P a b eps mx : wf_surface s -> unit_square (a, b) ->
  (forall n, mx <= INR n -> exists uv, Surface_SearchParameter n s P a b eps mx = Ok uv /\ unit_square uv) /\
  (forall n n' uv uv', Surface_SearchParameter n s P a b eps mx = Ok uv -> Surface_SearchParameter n' s P a b eps mx = Ok uv' -> uv' = uv) /\
  (forall n u v, eps <= dbl_max -> INR n < mx -> Surface_SearchParameter n s P a b eps mx = Ok (u, v) ->
     unit_square (u, v) /\ dist3 (surf_point s u v) P < eps).
Proof.
  intros W [Ha Hb]. cbn [fst snd] in Ha, Hb.
  assert (S1 : forall x : R, unit_interval x -> (ngeb x n0 && nleb x n1)%bool = true).
  { intros x Hx. unfold unit_interval in Hx. norm_R. bool_R; try reflexivity; exfalso; lra. }
  unfold Surface_SearchParameter. rewrite !S1 by assumption. cbn [assert_ bind]. cbn zeta.
  match goal with |- context [search_loop2 ?r ?f eps mx _ 0 (a, b) _ m2id] => set (Rn := r); set (Ki := f) end.
  assert (ER : forall uv, unit_square uv -> Rn uv = Ok (dist3 (surf_point s (fst uv) (snd uv)) P)).
  { intros uv [Hu Hv]. unfold Rn. rewrite seval_ok by assumption. cbn [bind]. now rewrite dist3_norm. }
  assert (HR : total_on unit_square Rn) by (intros u Hu; rewrite ER by assumption; eauto).
  assert (Hf : total_on unit_square Ki).
  { intros uv [Hu Hv]. unfold Ki. rewrite seval_ok by assumption. cbn [bind].
    destruct (sderiv_ok s (fst uv) (snd uv) 1 0 W Hu Hv ltac:(lia) ltac:(lia)) as [d ->]. cbn [bind].
    destruct (sderiv_ok s (fst uv) (snd uv) 0 1 W Hu Hv ltac:(lia) ltac:(lia)) as [d' ->]. cbn [bind]. eauto. }
  assert (A : forall n, mx <= INR n -> exists u, search_loop2 Rn Ki eps mx n 0 (a, b) DBL_MAX m2id = Ok u /\ unit_square u).
  { intros n Hn. apply search_loop2_ok; auto; [split; assumption|lra]. }
  assert (M : forall n n' u u', search_loop2 Rn Ki eps mx n 0 (a, b) DBL_MAX m2id = Ok u ->
     search_loop2 Rn Ki eps mx n' 0 (a, b) DBL_MAX m2id = Ok u' -> u' = u).
  { intros n n' u u' E E'. apply search_loop2_mono with (fuel' := Nat.max n n') in E; [|lia].
    apply search_loop2_mono with (fuel' := Nat.max n n') in E'; [|lia]. congruence. }
  split; [exact A|]. split; [exact M|]. intros n u v He Hn E.
  assert (Hu : unit_square (u, v)).
  { destruct (fuel_for mx) as [n' Hn']. destruct (A n' Hn') as [u' [E' Hu']]. now rewrite <- (M _ _ _ _ E E'). }
  split; [exact Hu|].
  destruct (search_loop2_early Rn Ki eps mx n 0 (a, b) DBL_MAX m2id (u, v)) as [r [Er Hr]]; auto.
  - lra.
  - intros Hlt. exfalso. rewrite DBL_MAX_R in Hlt. apply (Rlt_not_le _ _ Hlt He).
  - rewrite ER in Er by assumption. injection Er as <-. exact Hr.
Qed.

(** The parameter pair with the fixed coordinate at [k]. *)
Definition on_pair (d : Z) (k x : R) : R * R := if Z.eqb d 0 then (k, x) else (x, k).
Lemma on_uv_pair d k x : (0 <= d <= 1)%Z -> on_uv d k x = on_pair d k x.
Proof. intros Hd. assert (d = 0 \/ d = 1)%Z as [-> | ->] by lia; reflexivity. Qed.

Lemma C54_on_lemma s P d k init eps mx : wf_surface s -> (0 <= d <= 1)%Z -> unit_interval k -> unit_interval init ->
  (forall n, mx <= INR n -> exists u v, Surface_SearchParameterOn n s P d k init eps mx = Ok (u, v)) /\
  (forall n n' uv uv', Surface_SearchParameterOn n s P d k init eps mx = Ok uv -> Surface_SearchParameterOn n' s P d k init eps mx = Ok uv' -> uv' = uv) /\
  (forall n u v, Surface_SearchParameterOn n s P d k init eps mx = Ok (u, v) ->
     unit_square (u, v) /\ (d = 0%Z -> u = k) /\ (d = 1%Z -> v = k) /\
     (eps <= dbl_max -> INR n < mx -> dist3 (surf_point s u v) P < eps)).
Proof.
  intros W Hd Hk Hi. unfold Surface_SearchParameterOn. cbn zeta.
  match goal with |- context [search_loop ?r ?f _ eps mx _ 0 init _ n1] => set (Rn := r); set (fi := f) end.
  set (pt := fun x => surf_point s (fst (on_pair d k x)) (snd (on_pair d k x))).
  assert (Sq : forall x, unit_interval x -> unit_square (on_pair d k x)).
  { intros x Hx. unfold on_pair. destruct (d =? 0)%Z; split; assumption. }
  assert (Ev : forall x, unit_interval x -> (let '(u, v) := on_uv d k x in Surface_Evaluate s u v) = Ok (pt x)).
  { intros x Hx. rewrite on_uv_pair by assumption. destruct (Sq x Hx) as [H1 H2]. unfold pt. destruct (on_pair d k x). apply seval_ok; assumption. }
  assert (ER : forall x, unit_interval x -> Rn x = Ok (dist3 (pt x) P)).
  { intros x Hx. unfold Rn. specialize (Ev x Hx). destruct (on_uv d k x). rewrite Ev. cbn [bind]. now rewrite dist3_norm. }
  assert (HR : total_on unit_interval Rn) by (intros u Hu; rewrite ER by assumption; eauto).
  assert (Hf : total_on unit_interval fi).
  { intros x Hx. unfold fi. specialize (Ev x Hx). pose proof (Sq x Hx) as Sx. rewrite <- on_uv_pair in Sx by assumption.
    destruct (on_uv d k x) as [u v]. destruct Sx as [H1 H2]. rewrite Ev. cbn [bind].
    destruct (d =? 1)%Z.
    - destruct (sderiv_ok s u v 1 0 W H1 H2 ltac:(lia) ltac:(lia)) as [e ->]. cbn [bind]. eauto.
    - destruct (sderiv_ok s u v 0 1 W H1 H2 ltac:(lia) ltac:(lia)) as [e ->]. cbn [bind]. eauto. }
  assert (A : forall n, mx <= INR n -> exists u, search_loop Rn fi 0 eps mx n 0 init DBL_MAX n1 = Ok u /\ unit_interval u).
  { intros n Hn. apply search_loop_ok; auto. lra. }
  assert (M : forall n n' u u', search_loop Rn fi 0 eps mx n 0 init DBL_MAX n1 = Ok u ->
     search_loop Rn fi 0 eps mx n' 0 init DBL_MAX n1 = Ok u' -> u' = u).
  { intros n n' u u' E E'. apply search_loop_mono with (fuel' := Nat.max n n') in E; [|lia].
    apply search_loop_mono with (fuel' := Nat.max n n') in E'; [|lia]. congruence. }
  assert (Res : forall x, on_result d k x = on_pair d k x) by reflexivity.
  split; [|split].
  - intros n Hn. destruct (A n Hn) as [x [-> _]]. cbn [bind]. destruct (on_result d k x) as [u v]. eauto.
  - intros n n' uv uv' E E'. apply bind_Ok in E. destruct E as [x [Ex E]]. apply bind_Ok in E'. destruct E' as [x' [Ex' E']].
    rewrite (M _ _ _ _ Ex Ex') in E'. congruence.
  - intros n u v E. apply bind_Ok in E. destruct E as [x [Ex E]]. rewrite Res in E. injection E as E.
    assert (Hx : unit_interval x).
    { destruct (fuel_for mx) as [n' Hn']. destruct (A n' Hn') as [u' [E' Hu']]. now rewrite <- (M _ _ _ _ Ex E'). }
    split; [rewrite <- E; apply Sq, Hx|].
    split; [intros ->; now injection E as <- _|]. split; [intros ->; now injection E as _ <-|].
    intros He Hn. destruct (search_loop_early Rn fi 0 eps mx n 0 init DBL_MAX n1 x) as [r [Er Hr]]; auto.
    + lra.
    + intros Hlt. exfalso. rewrite DBL_MAX_R in Hlt. apply (Rlt_not_le _ _ Hlt He).
    + rewrite ER in Er by assumption. injection Er as <-. revert Hr. unfold pt. now rewrite E.
Qed.

Lemma C54_binary_lemma s P d k eps mx : wf_surface s -> (0 <= d <= 1)%Z -> unit_interval k -> 0 <= eps ->
  (forall n, mx <= INR n -> exists u v, Surface_BinarySearchParameterOn n s P d k eps mx = Ok (u, v) /\
     unit_square (u, v) /\ (d = 0%Z -> u = k) /\ (d = 1%Z -> v = k)) /\
  (forall n u v, INR n < mx -> Surface_BinarySearchParameterOn n s P d k eps mx = Ok (u, v) ->
     dist3 (surf_point s u v) P < eps \/
     exists a b, (0 <= a <= 1)%R /\ (0 <= b <= 1)%R /\ b - a < eps /\
       (d = 0%Z -> a <= v <= b /\ dist3 (surf_point s u v) P <= Rmin (dist3 (surf_point s u a) P) (dist3 (surf_point s u b) P)) /\
       (d = 1%Z -> a <= u <= b /\ dist3 (surf_point s u v) P <= Rmin (dist3 (surf_point s a v) P) (dist3 (surf_point s b v) P))).
Proof.
  intros W Hd Hk He. unfold Surface_BinarySearchParameterOn. cbn zeta.
  match goal with |- context [bisect_loop ?r eps ?g] => set (Rn := r); set (go := g) end.
  set (pt := fun x => surf_point s (fst (on_pair d k x)) (snd (on_pair d k x))).
  assert (Sq : forall x, unit_interval x -> unit_square (on_pair d k x)).
  { intros x Hx. unfold on_pair. destruct (d =? 0)%Z; split; assumption. }
  assert (ER : forall x, unit_interval x -> Rn x = Ok (dist3 (pt x) P)).
  { intros x Hx. unfold Rn. rewrite on_uv_pair by assumption. destruct (Sq x Hx) as [H1 H2]. unfold pt. destruct (on_pair d k x).
    rewrite seval_ok by assumption. cbn [bind]. now rewrite dist3_norm. }
  norm_R. split.
  - intros n Hn.
    destruct (bisect_ok Rn (fun x => dist3 (pt x) P) eps go ER He (Z.of_nat n)) with (fuel := n) (count := 0%Z) (low := 0) (high := 1)
      as [x [-> Hx]]; try lra; try lia.
    { intros j Hj. unfold go. apply IZR_le in Hj. rewrite <- INR_IZR_INZ in Hj. norm_R. bool_R; [exfalso; lra|reflexivity]. }
    cbn [bind]. change (on_result d k x) with (on_pair d k x). pose proof (Sq x Hx) as Sx. destruct (on_pair d k x) as [u v] eqn:E.
    exists u, v. split; [reflexivity|]. split; [exact Sx|].
    split; [intros ->; now injection E as <- _|intros ->; now injection E as _ <-].
  - intros n u v Hn E. apply bind_Ok in E. destruct E as [x [Ex E]]. change (on_result d k x) with (on_pair d k x) in E. injection E as E.
    apply (bisect_early Rn (fun x => dist3 (pt x) P) eps go ER He) in Ex; [|lra|lra|].
    2:{ intros j Hj. unfold go. norm_R. rewrite Z.add_0_l in Hj. apply IZR_le in Hj. rewrite <- INR_IZR_INZ in Hj. bool_R; [reflexivity|exfalso; lra]. }
    destruct Ex as [Ex|[a [b [Ha [Hb [Hw [Fa Fb]]]]]]].
    + left. unfold pt in Ex. now rewrite E in Ex.
    + right. exists a, b. split; [lra|]. split; [lra|]. split; [exact Hw|].
      split; intros ->; injection E as <- <-; (split; [lra|]); apply Rmin_glb; [exact Fa|exact Fb|exact Fa|exact Fb].
Qed.
