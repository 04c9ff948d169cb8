(** AlignParameterDomain on doubles (C104). *)
From Coq Require Import Reals QArith ZArith List Lra Lia Bool Permutation SpecFloat.
From Verif Require Import Outcome Num ModelCore ModelBasis ModelCurve ModelSurface SpecCore SpecBasis SpecCurve SpecSurface SpecAlign SpecErr SpecRows SpecReverse64
  ThOutcome ThReal ThKnots ThGrid ThVec ThB64 ThCoreWit ThCurveWit ThSurfWit ThDecide ThInsert ThSurface ThSurface2 ThKnots2 ThGeom ThAlign ThAlign2 ThErrInsSurf ThErrWit ThGeom64 ThReverse64.
Import ListNotations.
Open Scope Z_scope.

(** ** The operations on the control net, for any numbers *)
Section Gen.
Context {T : Type} `{Num T}.
Lemma grid_freeze_gen (g : grid (option (vec4 T))) nu nv f : grid_is g nu nv (fun i j => Some (f i j)) ->
  exists g', grid_freeze g = Ok g' /\ grid_is g' nu nv f.
Proof.
  intros G. pose proof (grid_is_ze _ _ _ _ G) as Z1. destruct G as [Gu [Gv [Hu [Hv [L _]]]]].
  destruct (freeze_spec (Values g) (fun k => f (k mod nu) (k / nu))) as [l' [E [L' G']]].
  - intros k Hk. rewrite L, Z.mul_comm in Hk. destruct (idx_ex _ _ _ Hu Hk) as [r [c [Hr [Hc ->]]]].
    assert ((r * nu + c) mod nu = c) as -> by (rewrite Z.add_comm, Z.mod_add by lia; apply Z.mod_small; lia).
    assert ((r * nu + c) / nu = r) as -> by (rewrite Z.add_comm, Z.div_add by lia; rewrite Z.div_small by lia; lia).
    apply vget_ze; [nia|]. apply Z1; assumption.
  - unfold grid_freeze. rewrite E. cbn [bind]. eexists. split; [reflexivity|]. unfold grid_is. cbn [UCount VCount Values].
    repeat split; auto; [lia|]. intros i j Hi Hj. pose proof (idx_range j i nv nu Hj Hi). specialize (G' (j * nu + i) ltac:(lia)).
    replace ((j * nu + i) mod nu) with i in G' by (rewrite Z.add_comm, Z.mod_add by lia; rewrite Z.mod_small; lia).
    replace ((j * nu + i) / nu) with j in G' by (rewrite Z.add_comm, Z.div_add by lia; rewrite Z.div_small; lia).
    unfold vget in G'. destruct (Z.ltb_spec (j * nu + i) 0); [lia|]. destruct (nth_error l' (Z.to_nat (j * nu + i))); congruence.
Qed.
Lemma transpose_net_gen (g : grid (vec4 T)) nu nv f : grid_is g nu nv f -> nu * nv <= INT_MAX ->
  exists g', transpose_net g = Ok g' /\ grid_is g' nv nu (fun i j => f j i).
Proof.
  intros G Fit. destruct (G) as [Gu [Gv [Hu [Hv _]]]]. unfold transpose_net, grid_uninit. rewrite Gu, Gv.
  destruct (Grid_make_ok nv nu (@None (vec4 T))) as [g0 [E0 G0]]; try lia. rewrite E0. cbn [bind].
  destruct (fill_rows g0 nv nu _ 0 nv nu (fun i j => Some (f j i)) (fun v u tg => p <- Grid_Get g u v;; Grid_Set tg v u (Some p)) G0) as [g1 [E1 G1]]; try lia.
  - intros i j g' Hi Hj. rewrite (Grid_Get_ok _ _ _ _ _ _ G) by lia. reflexivity.
  - rewrite E1. cbn [bind]. apply grid_freeze_gen. apply (grid_is_eq _ _ _ _ _ G1). intros i j Hi Hj.
    destruct (Z.leb_spec 0 i); [|lia]. destruct (Z.ltb_spec i nv); [|lia]. destruct (Z.ltb_spec j nu); [|lia]. reflexivity.
Qed.
Lemma grid_swap_gen (g : grid (vec4 T)) nu nv f u v u' v' : grid_is g nu nv f ->
  0 <= u < nu -> 0 <= v < nv -> 0 <= u' < nu -> 0 <= v' < nv ->
  exists g', grid_swap g u v u' v' = Ok g' /\
    grid_is g' nu nv (fun i j => if (i =? u') && (j =? v') then f u v else if (i =? u) && (j =? v) then f u' v' else f i j).
Proof.
  intros G Hu Hv Hu' Hv'. unfold grid_swap. rewrite !(Grid_Get_ok _ _ _ _ _ _ G) by lia. cbn [bind].
  destruct (Grid_Set_ok g nu nv f u v (f u' v') G Hu Hv) as [g1 [E1 G1]]. rewrite E1. cbn [bind].
  apply (Grid_Set_ok g1 nu nv _ u' v' (f u v) G1); lia.
Qed.
Lemma reverse_netU_gen (g : grid (vec4 T)) nu nv f : grid_is g nu nv f ->
  exists g', reverse_netU g = Ok g' /\ grid_is g' nu nv (fun i j => f (nu - 1 - i) j).
Proof.
  intros G. destruct (G) as [Gu [Gv [Hu [Hv _]]]]. unfold reverse_netU. rewrite Gv. pose proof (quot2 nu Hu).
  destruct (for_up_inv (fun n g' => grid_is g' nu nv (fun i j => if j <? n then f (nu - 1 - i) j else f i j)) 0 nv
    (fun v g => for_up 0 (Z.quot (UCount g) 2) (fun u g => grid_swap g u v (UCount g - 1 - u) v) g) g) as [g' [E' G']].
  - lia.
  - apply (grid_is_eq _ _ _ _ _ G). intros i j Hi Hj. zcases.
  - intros n g1 Hn G1. destruct (G1) as [G1u _]. rewrite G1u.
    destruct (for_up_inv (fun h g' => grid_is g' nu nv (fun i j => if (j <? n) || ((j =? n) && ((i <? h) || (nu - 1 - h <? i))) then f (nu - 1 - i) j else f i j))
      0 (Z.quot nu 2) (fun u g => grid_swap g u n (UCount g - 1 - u) n) g1) as [g2 [E2 G2]].
    + lia.
    + apply (grid_is_eq _ _ _ _ _ G1). intros i j Hi Hj. zcases.
    + intros h g2 Hh G2. destruct (G2) as [G2u _]. rewrite G2u.
      destruct (grid_swap_gen g2 nu nv _ h n (nu - 1 - h) n G2) as [g3 [E3 G3]]; try lia.
      exists g3. split; [exact E3|]. apply (grid_is_eq _ _ _ _ _ G3). intros i j Hi Hj. zcases.
    + exists g2. split; [exact E2|]. apply (grid_is_eq _ _ _ _ _ G2). intros i j Hi Hj. zcases.
  - exists g'. split; [exact E'|]. apply (grid_is_eq _ _ _ _ _ G'). intros i j Hi Hj. zcases.
Qed.
Lemma reverse_netV_gen (g : grid (vec4 T)) nu nv f : grid_is g nu nv f ->
  exists g', reverse_netV g = Ok g' /\ grid_is g' nu nv (fun i j => f i (nv - 1 - j)).
Proof.
  intros G. destruct (G) as [Gu [Gv [Hu [Hv _]]]]. unfold reverse_netV. rewrite Gu. pose proof (quot2 nv Hv).
  destruct (for_up_inv (fun n g' => grid_is g' nu nv (fun i j => if i <? n then f i (nv - 1 - j) else f i j)) 0 nu
    (fun u g => for_up 0 (Z.quot (VCount g) 2) (fun v g => grid_swap g u v u (VCount g - 1 - v)) g) g) as [g' [E' G']].
  - lia.
  - apply (grid_is_eq _ _ _ _ _ G). intros i j Hi Hj. zcases.
  - intros n g1 Hn G1. destruct (G1) as [_ [G1v _]]. rewrite G1v.
    destruct (for_up_inv (fun h g' => grid_is g' nu nv (fun i j => if (i <? n) || ((i =? n) && ((j <? h) || (nv - 1 - h <? j))) then f i (nv - 1 - j) else f i j))
      0 (Z.quot nv 2) (fun v g => grid_swap g n v n (VCount g - 1 - v)) g1) as [g2 [E2 G2]].
    + lia.
    + apply (grid_is_eq _ _ _ _ _ G1). intros i j Hi Hj. zcases.
    + intros h g2 Hh G2. destruct (G2) as [_ [G2v _]]. rewrite G2v.
      destruct (grid_swap_gen g2 nu nv _ n h n (nv - 1 - h) G2) as [g3 [E3 G3]]; try lia.
      exists g3. split; [exact E3|]. apply (grid_is_eq _ _ _ _ _ G3). intros i j Hi Hj. zcases.
    + exists g2. split; [exact E2|]. apply (grid_is_eq _ _ _ _ _ G2). intros i j Hi Hj. zcases.
  - exists g'. split; [exact E'|]. apply (grid_is_eq _ _ _ _ _ G'). intros i j Hi Hj. zcases.
Qed.


(** the cell of the original shown at (i, j) of the turned net of [nu] by [nv] cells *)
Definition turn_cell (sw ru rv : bool) (nu nv : Z) (f : Z -> Z -> vec4 T) (i j : Z) : vec4 T :=
  let a := if ru then nu - 1 - i else i in let b := if rv then nv - 1 - j else j in if sw then f b a else f a b.
Lemma align_apply_gen (s : surface T) nu nv f sw ru rv : grid_is (Net s) nu nv f -> nu * nv <= INT_MAX ->
  exists g, align_apply s sw ru rv = Ok (Surface (if sw then DegreeV s else DegreeU s) (if sw then DegreeU s else DegreeV s)
      (let l := if sw then KnotsV s else KnotsU s in if ru then KnotVector_Reverse l else l)
      (let l := if sw then KnotsU s else KnotsV s in if rv then KnotVector_Reverse l else l) g) /\
    grid_is g (if sw then nv else nu) (if sw then nu else nv) (turn_cell sw ru rv (if sw then nv else nu) (if sw then nu else nv) f).
Proof.
  intros G Fit. unfold align_apply. set (nu' := if sw then nv else nu). set (nv' := if sw then nu else nv).
  assert (exists s1, (if sw then net <- transpose_net (Net s);; Ok (Surface (DegreeV s) (DegreeU s) (KnotsV s) (KnotsU s) net) else Ok s) = Ok s1 /\
    DegreeU s1 = (if sw then DegreeV s else DegreeU s) /\ DegreeV s1 = (if sw then DegreeU s else DegreeV s) /\
    KnotsU s1 = (if sw then KnotsV s else KnotsU s) /\ KnotsV s1 = (if sw then KnotsU s else KnotsV s) /\
    grid_is (Net s1) nu' nv' (fun i j => if sw then f j i else f i j)) as [s1 [E1 [D1 [D2 [K1 [K2 G1]]]]]].
  { unfold nu', nv'. destruct sw.
    - destruct (transpose_net_gen _ _ _ _ G Fit) as [g [E Gg]]. rewrite E. cbn [bind]. eexists. split; [reflexivity|]. auto 6.
    - exists s. auto 7. }
  rewrite E1. cbn [bind]. rewrite <- D1, <- D2, <- K1, <- K2. clear E1 D1 D2 K1 K2.
  assert (exists g2, (if ru then net <- reverse_netU (Net s1);; Ok (Surface (DegreeU s1) (DegreeV s1) (KnotVector_Reverse (KnotsU s1)) (KnotsV s1) net) else Ok s1) =
      Ok (Surface (DegreeU s1) (DegreeV s1) (if ru then KnotVector_Reverse (KnotsU s1) else KnotsU s1) (KnotsV s1) g2) /\
    grid_is g2 nu' nv' (fun i j => let a := if ru then nu' - 1 - i else i in if sw then f j a else f a j)) as [g2 [E2 G2]].
  { destruct ru.
    - destruct (reverse_netU_gen _ _ _ _ G1) as [g [E Gg]]. rewrite E. cbn [bind]. exists g. split; [reflexivity|exact Gg].
    - exists (Net s1). split; [destruct s1; reflexivity|exact G1]. }
  rewrite E2. cbn [bind DegreeU DegreeV KnotsU KnotsV Net]. cbv zeta. destruct rv.
  - destruct (reverse_netV_gen _ _ _ _ G2) as [g [E Gg]]. rewrite E. cbn [bind]. exists g. split; [reflexivity|exact Gg].
  - exists g2. split; [reflexivity|exact G2].
Qed.
Lemma full_grid_is (g : grid (vec4 T)) : full_grid g -> exists f, grid_is g (UCount g) (VCount g) f.
Proof.
  intros [Hu [Hv L]]. eexists. pose proof (grid_is_ex (Vec4 n0 n0 n0 n0) (UCount g) (VCount g) (Values g) Hu Hv L) as G.
  destruct g as [u v l]. exact G.
Qed.
End Gen.

(** ** The choice never fails on doubles *)
Lemma v3normalized_b64 (v : vec3 b64) : exists n, v3normalized v = Ok n.
Proof. unfold v3normalized. cbv zeta. destruct (nltb n0 (v3dot v v)); [|eauto]. unfold v3div. cbn [ndiv Num_b64 bind]. eauto. Qed.
Lemma align_choice acos_ sort_ (s : surface b64) ua va : (forall l, Permutation (sort_ l) l) -> full_grid (Net s) ->
  Surface_AlignParameterDomain acos_ sort_ s ua va = Ok s \/
  exists sw ru rv, Surface_AlignParameterDomain acos_ sort_ s ua va = align_apply s sw ru rv.
Proof.
  intros Rs Fg. destruct (full_grid_is _ Fg) as [f G]. unfold Surface_AlignParameterDomain.
  destruct (Z.ltb_spec (UCount (Net s)) 2) as [|HU]; [left; reflexivity|]. destruct (Z.ltb_spec (VCount (Net s)) 2) as [|HV]; [left; reflexivity|].
  cbn [orb]. cbv zeta. rewrite !(Grid_Get_ok _ _ _ _ _ _ G) by lia. cbn [bind].
  match goal with |- context [sort_ [?a; ?b; ?c]] => assert (exists x y z, sort_ [a; b; c] = [x; y; z]) as [[e1 m1] [[e2 m2] [[e3 m3] Es]]] by
    (pose proof (Permutation_length (Rs [a; b; c])) as P; destruct (sort_ [a; b; c]) as [|x [|y [|z [|w t]]]]; try discriminate; eauto) end.
  rewrite Es. clear Es.
  change (vget [(e1, m1); (e2, m2); (e3, m3)] 0) with (Ok (e1, m1)). change (vget [(e1, m1); (e2, m2); (e3, m3)] 1) with (Ok (e2, m2)).
  cbn [bind].
  match goal with |- context [foldM ?f ?l []] => set (F := f); set (L := l) end.
  assert (forall vs v, exists vs', F vs v = Ok vs') as HF.
  { intros vs v. unfold F. destruct (ngtb (v3norm v) lit_1e_6); [|eauto]. destruct (v3normalized_b64 v) as [n En]. rewrite En. cbn [bind]. eauto. }
  assert (forall l vs, exists vs', foldM F l vs = Ok vs') as HL.
  { induction l as [|v l IH]; intros vs; [exists vs; reflexivity|]. cbn [foldM]. destruct (HF vs v) as [v1 E1]. rewrite E1. cbn [bind]. apply IH. }
  destruct (HL L []) as [vs Ev]. rewrite Ev. cbn [bind]. destruct vs as [|w vs]; [left; reflexivity|].
  assert (exists cu cv us vss, align_axes m1 m2 (w :: vs) = Ok (cu, cv, us, vss)) as [cu [cv [us [vss Ea]]]].
  { unfold align_axes. destruct (len (w :: vs) <? 4) eqn:E4.
    - match goal with |- context [fold_left ?f ?l ?a] => destruct (fold_left f l a) as [[[c1 c2] du] dv] end.
      cbv zeta. destruct (c2 <=? c1); do 4 eexists; reflexivity.
    - apply Z.ltb_ge in E4. destruct w as [[w0 w1] w2]. destruct vs as [|[[u0 u1] u2] vs]; [cbn in E4; lia|].
      change (vget ((w0, w1, w2) :: (u0, u1, u2) :: vs) 0) with (Ok (w0, w1, w2)).
      change (vget ((w0, w1, w2) :: (u0, u1, u2) :: vs) 1) with (Ok (u0, u1, u2)). cbn [bind].
      destruct (GetDominantAxis w0), (GetDominantAxis u0). do 4 eexists; reflexivity. }
  rewrite Ea. cbn [bind]. destruct (negb (axis_eqb cu ua)).
  - destruct (axis_eqb cv ua && axis_eqb cu va); [right; eauto|left; reflexivity].
  - right; eauto.
Qed.
Lemma flipped_ok (l : list b64) : flipped_knots l (KnotVector_Reverse l).
Proof.
  split; [exact (len_Rev l)|]. intros i Hi. destruct (vget_ex l (len l - 1 - i) ltac:(lia)) as [x Ex]. exists x. split; [exact Ex|].
  unfold KnotVector_Reverse, vget. destruct (Z.ltb_spec i 0); [lia|]. unfold vget in Ex. destruct (Z.ltb_spec (len l - 1 - i) 0); [lia|].
  rewrite nth_error_map. unfold len in *.
  assert (nth_error (rev l) (Z.to_nat i) = Some x) as ->; [|reflexivity].
  destruct (nth_error l (Z.to_nat (Z.of_nat (length l) - 1 - i))) as [y|] eqn:Ey; [|discriminate]. injection Ex as ->.
  rewrite (nth_error_nth' _ dz) by (rewrite rev_length; lia). f_equal. rewrite rev_nth by lia.
  replace (length l - S (Z.to_nat i))%nat with (Z.to_nat (Z.of_nat (length l) - 1 - i)) by lia. apply nth_error_nth. exact Ey.
Qed.
Lemma turned_refl s : full_grid (Net s) -> turned s s false false false.
Proof.
  intros Fg. destruct (full_grid_is _ Fg) as [f G]. unfold turned. cbn. repeat (split; [reflexivity|]). split; [exact Fg|].
  intros i j Hi Hj. exists (f i j). rewrite (Grid_Get_ok _ _ _ _ _ _ G) by assumption. auto.
Qed.
Lemma turned_apply (s : surface b64) sw ru rv : full_grid (Net s) -> UCount (Net s) * VCount (Net s) <= INT_MAX ->
  exists d, align_apply s sw ru rv = Ok d /\ turned s d sw ru rv.
Proof.
  intros Fg Fit. destruct (full_grid_is _ Fg) as [f G]. destruct (align_apply_gen s _ _ _ sw ru rv G Fit) as [g [E Gg]].
  rewrite E. eexists. split; [reflexivity|]. unfold turned. cbn [DegreeU DegreeV KnotsU KnotsV Net]. destruct (Gg) as [Gu [Gv [Hu [Hv [L _]]]]].
  repeat (split; [reflexivity|]). split; [unfold flipped_if; destruct ru; [apply flipped_ok|reflexivity]|]. split; [unfold flipped_if; destruct rv; [apply flipped_ok|reflexivity]|].
  split; [exact Gu|]. split; [exact Gv|]. split; [unfold full_grid; rewrite Gu, Gv, L; destruct sw; lia|].
  rewrite Gu, Gv. intros i j Hi Hj. cbv zeta. eexists. split; [apply (Grid_Get_ok _ _ _ _ _ _ Gg); assumption|].
  unfold turn_cell. destruct sw; apply (Grid_Get_ok _ _ _ _ _ _ G); destruct ru, rv; lia.
Qed.
Lemma C104_lemma acos_ sort_ (s : surface b64) ua va : (forall l, Permutation (sort_ l) l) -> full_grid (Net s) -> UCount (Net s) * VCount (Net s) <= INT_MAX ->
  exists d sw ru rv, Surface_AlignParameterDomain acos_ sort_ s ua va = Ok d /\ turned s d sw ru rv.
Proof.
  intros Rs Fg Fit. destruct (align_choice acos_ sort_ s ua va Rs Fg) as [E|[sw [ru [rv E]]]].
  - exists s, false, false, false. split; [exact E|apply turned_refl; exact Fg].
  - destruct (turned_apply s sw ru rv Fg Fit) as [d [Ed Td]]. exists d, sw, ru, rv. split; [congruence|exact Td].
Qed.

(** ** Knots that are multiples of 2^-53: the result is the original, evaluated to full accuracy *)
Lemma grid53_gap x y : (exists m, x = IZR m / 2 ^ 53)%R -> (exists m, y = IZR m / 2 ^ 53)%R -> (x < y)%R -> (/ 2 ^ 53 <= y - x)%R.
Proof.
  intros [m ->] [n ->] L. assert (0 < / 2 ^ 53)%R as P by (apply Rinv_0_lt_compat, pow_lt; lra). unfold Rdiv in *.
  assert (m < n) as Lz by (apply lt_IZR; nra). assert (m + 1 <= n) as Lz' by lia. apply IZR_le in Lz'. rewrite plus_IZR in Lz'. nra.
Qed.
Lemma grid53_at l i : on_grid53 l -> 0 <= i < len l -> exists m, (at_ l i = IZR m / 2 ^ 53)%R.
Proof. intros G Hi. unfold on_grid53 in G. rewrite Forall_forall in G. apply G, at_In, Hi. Qed.
Lemma grid53_apart l : on_grid53 (vals l) -> apart l.
Proof.
  intros G i Hi Hl L. eapply Rle_trans; [|apply grid53_gap; [apply grid53_at|apply grid53_at|exact L]; try exact G; rewrite len_vals; lia].
  apply Rinv_le_contravar; [apply pow_lt; lra|apply Rle_pow; [lra|lia]].
Qed.
Lemma grid53_sound p l : sound_knots p l -> on_grid53 (vals l) -> sound_knots p (KnotVector_Reverse l) /\ on_grid53 (vals (KnotVector_Reverse l)) /\ vals (KnotVector_Reverse l) = KnotVector_Reverse (vals l).
Proof.
  intros K G. destruct (K) as [Fl C]. destruct (Reverse64_exact l Fl (clamped_interval _ _ C) G) as [E [G' _]]. split; [|split; assumption].
  apply C103_clamped_lemma; [exact K|]. pose proof (cl_degree _ _ C). pose proof (cl_len _ _ C). pose proof (cl_first _ _ C) as P.
  destruct (grid53_at _ 0 G ltac:(lia)) as [m E0]. rewrite (cl_zero _ _ C) in E0 by lia.
  pose proof (grid53_gap 0 _ ltac:(exists m; exact E0) (grid53_at _ (p + 1) G ltac:(lia)) P) as Q.
  apply Rlt_le_trans with (/ 2 ^ 53)%R; [|lra]. apply Rinv_lt_contravar; [|simpl; lra]. apply Rmult_lt_0_compat; apply pow_lt; lra.
Qed.
Lemma turned_exact (s : surface b64) sw ru rv d : full_grid (Net s) -> UCount (Net s) * VCount (Net s) <= INT_MAX ->
  (forall l, l = KnotsU s \/ l = KnotsV s -> vals (KnotVector_Reverse l) = KnotVector_Reverse (vals l)) ->
  align_apply s sw ru rv = Ok d -> align_apply (surface_val s) sw ru rv = Ok (surface_val d).
Proof.
  intros Fg Fit Hr E. destruct (full_grid_is _ Fg) as [f G]. destruct (align_apply_gen s _ _ _ sw ru rv G Fit) as [g [Eg Gg]].
  assert (grid_is (Net (surface_val s)) (UCount (Net s)) (VCount (Net s)) (fun i j => val4 (f i j))) as Gv by exact (grid_map val4 _ _ _ _ G).
  destruct (align_apply_gen (surface_val s) _ _ _ sw ru rv Gv Fit) as [g' [Eg' Gg']]. rewrite Eg'. rewrite Eg in E. injection E as <-. f_equal.
  unfold surface_val. cbn [DegreeU DegreeV KnotsU KnotsV Net]. f_equal.
  - destruct sw, ru; cbv zeta; rewrite ?Hr by auto; reflexivity.
  - destruct sw, rv; cbv zeta; rewrite ?Hr by auto; reflexivity.
  - apply (grid_is_unique _ _ _ _ _ Gg'). apply (grid_is_eq _ _ _ _ _ (grid_map val4 _ _ _ _ Gg)). intros i j Hi Hj. unfold turn_cell. destruct sw; reflexivity.
Qed.
Lemma turned_eval (s d : surface b64) sw ru rv M : sound_surface s -> Forall (tame M) (Values (Net s)) -> UCount (Net s) * VCount (Net s) <= INT_MAX ->
  on_grid53 (vals (KnotsU s)) -> on_grid53 (vals (KnotsV s)) -> DegreeU s <= 50 -> DegreeV s <= 50 -> (0 <= M <= 2 ^ 100)%R ->
  align_apply s sw ru rv = Ok d ->
  sound_surface d /\ forall u v, finite64 u -> (0 <= val u <= 1)%R -> finite64 v -> (0 <= val v <= 1)%R ->
    let c := square_sym sw ru rv (val u, val v) in
    ((if sw then rv else ru) = true -> ~ jump_at (DegreeU s) (vals (KnotsU s)) (fst c)) ->
    ((if sw then ru else rv) = true -> ~ jump_at (DegreeV s) (vals (KnotsV s)) (snd c)) ->
    exists q, Surface_Evaluate d u v = Ok q /\
      near3 (45 * (IZR (DegreeU s) + IZR (DegreeV s) + 1) / 2 ^ 53 * M + / 2 ^ 450) q (surf_point (surface_val s) (fst c) (snd c)).
Proof.
  intros S Ft Fit Gu Gv Du Dv HM E. destruct (S) as [Ku [Kv [Nu [Nv L]]]].
  pose proof (proj2 Ku) as Cu. pose proof (proj2 Kv) as Cv. pose proof (cl_len _ _ Cu) as Lu. pose proof (cl_len _ _ Cv) as Lv. rewrite len_vals in Lu, Lv.
  pose proof (cl_degree _ _ Cu). pose proof (cl_degree _ _ Cv).
  assert (full_grid (Net s)) as Fg by (split; [lia|split; [lia|exact L]]). pose proof (tame_wf_surf s M S Ft) as W.
  destruct (grid53_sound _ _ Ku Gu) as [Ku' [Gu' Eu]]. destruct (grid53_sound _ _ Kv Gv) as [Kv' [Gv' Ev]].
  assert (align_apply (surface_val s) sw ru rv = Ok (surface_val d)) as EV by (apply turned_exact; auto; intros l [->| ->]; assumption).
  destruct (align_apply_ok (surface_val s) sw ru rv W Fit) as [d' [Ed' [Wd [Rd _]]]]. rewrite EV in Ed'. injection Ed' as <-.
  destruct (full_grid_is _ Fg) as [f G]. destruct (align_apply_gen s _ _ _ sw ru rv G Fit) as [g [Eg Gg]]. rewrite E in Eg. injection Eg as Eg.
  pose proof (len_Rev (KnotsU s)) as LRu. pose proof (len_Rev (KnotsV s)) as LRv. destruct (Gg) as [Ggu [Ggv [_ [_ [Ggl _]]]]].
  assert (sound_surface d) as Sd.
  { subst d. unfold sound_surface. cbn [DegreeU DegreeV KnotsU KnotsV Net]. rewrite Ggu, Ggv, Ggl. cbv zeta.
    destruct sw, ru, rv; rewrite ?LRu, ?LRv; repeat split; (assumption || apply Ku || apply Kv || apply Ku' || apply Kv' || lia). }
  split; [exact Sd|]. intros u v Fu Hu Fv Hv c Ju Jv.
  assert (DegreeU d = (if sw then DegreeV s else DegreeU s) /\ DegreeV d = (if sw then DegreeU s else DegreeV s)) as [D1 D2] by (subst d; auto).
  destruct (C67_lemma d M u v Sd) as [q [Eq Nq]]; auto.
  - subst d. cbn [KnotsU]. apply grid53_apart. destruct sw, ru; assumption.
  - subst d. cbn [KnotsV]. apply grid53_apart. destruct sw, rv; assumption.
  - rewrite D1. destruct sw; assumption.
  - rewrite D2. destruct sw; assumption.
  - subst d. cbn [Net]. apply (grid_Forall _ _ _ _ _ Gg). intros i j Hi Hj. unfold turn_cell.
    assert (forall a b, 0 <= a < UCount (Net s) -> 0 <= b < VCount (Net s) -> tame M (f a b)) as Tf.
    { intros a b Ha Hb. destruct G as [_ [_ [_ [_ [_ Gn]]]]]. rewrite Forall_forall in Ft. apply Ft. apply (nth_error_In _ _ (Gn a b Ha Hb)). }
    destruct sw; apply Tf; destruct ru, rv; lia.
  - exists q. split; [exact Eq|]. rewrite D1, D2 in Nq.
    assert (surf_point (surface_val d) (val u) (val v) = surf_point (surface_val s) (fst c) (snd c)) as <-.
    { pose proof (Rd (val u) (val v) Ju Jv) as R. cbv zeta in R. fold c in R.
      assert ((0 <= fst c <= 1)%R /\ (0 <= snd c <= 1)%R) as [Hc1 Hc2] by (unfold c, square_sym, flip; destruct sw, ru, rv; cbn; lra).
      rewrite !Surface_Evaluate_ok in R by assumption. congruence. }
    destruct sw; [|exact Nq]. replace (IZR (DegreeU s) + IZR (DegreeV s))%R with (IZR (DegreeV s) + IZR (DegreeU s))%R by ring. exact Nq.
Qed.
Lemma align_apply_id {T} `{Num T} (s : surface T) : align_apply s false false false = Ok s.
Proof. reflexivity. Qed.
Lemma C104_eval_lemma acos_ sort_ (s : surface b64) ua va M : (forall l, Permutation (sort_ l) l) -> sound_surface s -> Forall (tame M) (Values (Net s)) ->
  UCount (Net s) * VCount (Net s) <= INT_MAX -> on_grid53 (vals (KnotsU s)) -> on_grid53 (vals (KnotsV s)) -> DegreeU s <= 50 -> DegreeV s <= 50 -> (0 <= M <= 2 ^ 100)%R ->
  exists d sw ru rv, Surface_AlignParameterDomain acos_ sort_ s ua va = Ok d /\ turned s d sw ru rv /\ sound_surface d /\
    forall u v, finite64 u -> (0 <= val u <= 1)%R -> finite64 v -> (0 <= val v <= 1)%R ->
    let c := square_sym sw ru rv (val u, val v) in
    ((if sw then rv else ru) = true -> ~ jump_at (DegreeU s) (vals (KnotsU s)) (fst c)) ->
    ((if sw then ru else rv) = true -> ~ jump_at (DegreeV s) (vals (KnotsV s)) (snd c)) ->
    exists q, Surface_Evaluate d u v = Ok q /\
      near3 (45 * (IZR (DegreeU s) + IZR (DegreeV s) + 1) / 2 ^ 53 * M + / 2 ^ 450) q (surf_point (surface_val s) (fst c) (snd c)).
Proof.
  intros Rs S Ft Fit Gu Gv Du Dv HM. destruct (S) as [Ku [Kv [Nu [Nv L]]]].
  pose proof (cl_len _ _ (proj2 Ku)) as Lu. pose proof (cl_len _ _ (proj2 Kv)) as Lv. rewrite len_vals in Lu, Lv. pose proof (cl_degree _ _ (proj2 Ku)). pose proof (cl_degree _ _ (proj2 Kv)).
  assert (full_grid (Net s)) as Fg by (split; [lia|split; [lia|exact L]]).
  assert (exists sw ru rv, Surface_AlignParameterDomain acos_ sort_ s ua va = align_apply s sw ru rv) as [sw [ru [rv E]]].
  { destruct (align_choice acos_ sort_ s ua va Rs Fg) as [E|E]; [|exact E]. exists false, false, false. rewrite align_apply_id. exact E. }
  destruct (turned_apply s sw ru rv Fg Fit) as [d [Ed Td]]. exists d, sw, ru, rv. split; [congruence|]. split; [exact Td|]. apply turned_eval; assumption.
Qed.
