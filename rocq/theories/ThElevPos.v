(** Positivity of elevated coefficients. *)
From Coq Require Import Reals ZArith List Lra Lia Permutation Sorted FunctionalExtensionality.
From Verif Require Import Outcome SpecCore SpecBasis ThOutcome ThKnots ThMath ThSum ThVec ThSpline ThBasis ThCurve ThInsert ThReverse
  ThPolar ThElevKnots.
Import ListNotations.
Open Scope Z_scope.

Lemma osum_pos_app ts : forall f, ts <> [] -> (forall l1 x l2, ts = l1 ++ x :: l2 -> (0 < f (l1 ++ l2))%R) -> (0 < osum f ts)%R.
Proof.
  assert (forall ts f, (forall l1 x l2, ts = l1 ++ x :: l2 -> (0 < f (l1 ++ l2))%R) -> (0 <= osum f ts /\ (ts <> [] -> 0 < osum f ts))%R) as G.
  { clear ts. induction ts as [|a l IH]; intros f H; cbn [osum]; [split; [lra|congruence]|].
    assert (0 < f l)%R by (apply (H [] a l); reflexivity).
    destruct (IH (fun m => f (a :: m))) as [N _].
    { intros l1 x l2 E. apply (H (a :: l1) x l2). rewrite E. reflexivity. }
    split; [lra|intros; lra]. }
  intros f Ne H. apply G; assumption.
Qed.

(** ** Initial segments of sorted lists *)
Section Prefix.
  Variable lt : R -> R -> Prop.
  Hypothesis lt_irr : forall x, ~ lt x x.
  Hypothesis lt_tri : forall x y, lt x y \/ x = y \/ lt y x.
  Lemma sorted_prefix : forall L B, StronglySorted (fun x y => ~ lt y x) L -> StronglySorted (fun x y => ~ lt y x) B ->
    (forall x, count x L <= count x B) -> (forall x w, In w L -> lt x w -> count x B <= count x L) -> exists B', B = L ++ B'.
  Proof.
    induction L as [|y L IH]; intros B SL SB C1 C2; [exists B; reflexivity|].
    inversion SL as [|? ? SL' FL]; subst. rewrite Forall_forall in FL.
    destruct B as [|b B].
    - exfalso. specialize (C1 y). rewrite count_cons in C1. destruct (Req_EM_T y y); [|congruence]. pose proof (count_nonneg y L).
      unfold count in C1 at 2. cbn in C1. lia.
    - inversion SB as [|? ? SB' FB]; subst. rewrite Forall_forall in FB.
      assert (b = y) as ->.
      { destruct (lt_tri b y) as [Lt|[E|Lt]]; [exfalso|exact E|exfalso].
        - specialize (C2 b y ltac:(left; reflexivity) Lt). rewrite (count_cons b b) in C2. destruct (Req_EM_T b b); [|congruence].
          pose proof (count_nonneg b B). assert (In b (y :: L)) as I by (apply count_In; lia). destruct I as [->|I]; [apply (lt_irr b); exact Lt|].
          apply (FL b I). exact Lt.
        - specialize (C1 y). rewrite (count_cons y y) in C1. destruct (Req_EM_T y y); [|congruence].
          pose proof (count_nonneg y L). assert (In y (b :: B)) as I by (apply count_In; lia). destruct I as [->|I]; [apply (lt_irr y); exact Lt|].
          apply (FB y I). exact Lt. }
      destruct (IH B SL' SB') as [B' ->].
      + intros x. specialize (C1 x). rewrite !count_cons in C1. lia.
      + intros x w Hw Lt. specialize (C2 x w ltac:(right; exact Hw) Lt). rewrite !count_cons in C2. lia.
      + exists B'. reflexivity.
  Qed.
End Prefix.
Definition asc (l : list R) : Prop := StronglySorted (fun x y => ~ (y < x)%R) l.
Definition desc (l : list R) : Prop := StronglySorted (fun x y => ~ (y > x)%R) l.
Lemma ss_app (P : R -> R -> Prop) l1 l2 : StronglySorted P (l1 ++ l2) <->
  StronglySorted P l1 /\ StronglySorted P l2 /\ forall x y, In x l1 -> In y l2 -> P x y.
Proof.
  induction l1 as [|a l1 IH]; cbn [app].
  - split; [intros H; split; [constructor|split; [exact H|intros x y []]]|intros [_ [H _]]; exact H].
  - split.
    + intros H. inversion H as [|? ? H1 H2]; subst. apply IH in H1. destruct H1 as [S1 [S2 S3]]. rewrite Forall_forall in H2. split; [|split].
      * constructor; [exact S1|]. apply Forall_forall. intros y Hy. apply H2. apply in_app_iff. left. exact Hy.
      * exact S2.
      * intros x y [<-|Hx] Hy; [apply H2; apply in_app_iff; right; exact Hy|apply S3; assumption].
    + intros [S1 [S2 S3]]. inversion S1 as [|? ? H1 H2]; subst. rewrite Forall_forall in H2. constructor.
      * apply IH. split; [exact H1|]. split; [exact S2|]. intros x y Hx Hy. apply S3; [right; exact Hx|exact Hy].
      * apply Forall_forall. intros y Hy. apply in_app_iff in Hy. destruct Hy as [Hy|Hy]; [apply H2; exact Hy|apply S3; [left; reflexivity|exact Hy]].
Qed.
Lemma ss_rev (P Q : R -> R -> Prop) l : (forall x y, P x y -> Q y x) -> StronglySorted P l -> StronglySorted Q (rev l).
Proof.
  intros H S. induction S as [|a l S IH F]; [constructor|]. cbn [rev]. apply ss_app. split; [exact IH|]. split; [repeat constructor|].
  intros x y Hx [<-|[]]. apply H. rewrite Forall_forall in F. apply F. apply in_rev. exact Hx.
Qed.
Lemma count_rev x l : count x (rev l) = count x l.
Proof. unfold count. rewrite count_occ_rev. reflexivity. Qed.
Lemma asc_suffix L A : asc L -> asc A -> (forall x, count x L <= count x A) -> (forall x w, In w L -> (w < x)%R -> count x A <= count x L) ->
  exists A', A = A' ++ L.
Proof.
  intros SL SA C1 C2.
  destruct (sorted_prefix (fun x y => (x > y)%R) (fun x => Rgt_irrefl x)) with (L := rev L) (B := rev A) as [B' E].
  - intros x y. destruct (Rtotal_order x y) as [H|[H|H]]; auto.
  - apply (ss_rev (fun x y => ~ (y < x)%R)); [|exact SL]. intros x y H. unfold Rgt. exact H.
  - apply (ss_rev (fun x y => ~ (y < x)%R)); [|exact SA]. intros x y H. unfold Rgt. exact H.
  - intros x. rewrite !count_rev. apply C1.
  - intros x w Hw Lt. rewrite !count_rev. apply (C2 x w); [apply in_rev; exact Hw|exact Lt].
  - exists (rev B'). rewrite <- (rev_involutive A), E, rev_app_distr, rev_involutive. reflexivity.
Qed.
Lemma asc_prefix L B : asc L -> asc B -> (forall x, count x L <= count x B) -> (forall x w, In w L -> (x < w)%R -> count x B <= count x L) ->
  exists B', B = L ++ B'.
Proof.
  intros. apply (sorted_prefix Rlt Rlt_irrefl); try assumption. intros x y. destruct (Rtotal_order x y) as [H'|[H'|H']]; auto.
Qed.
Lemma nondec_asc l : nondecreasing l -> asc l.
Proof.
  induction l as [|x l IH]; intros N; [constructor|]. apply nondec_cons in N. destruct N as [N1 N2]. constructor; [apply IH; exact N2|].
  apply Forall_forall. intros y Hy. specialize (N1 y Hy). lra.
Qed.
Lemma asc_split b : forall L, asc L -> exists L1 L2, L = L1 ++ L2 /\ (forall x, In x L1 -> (x <= b)%R) /\ (forall x, In x L2 -> (b < x)%R).
Proof.
  induction L as [|y L IH]; intros S.
  - exists [], []. split; [reflexivity|]. split; intros x [].
  - inversion S as [|? ? S' F]; subst. destruct (Rle_lt_dec y b) as [H|H].
    + destruct (IH S') as [L1 [L2 [-> [H1 H2]]]]. exists (y :: L1), L2. split; [reflexivity|]. split; [|exact H2].
      intros x [<-|Hx]; [exact H|apply H1; exact Hx].
    + exists [], (y :: L). split; [reflexivity|]. split; [intros x []|]. intros x [<-|Hx]; [exact H|].
      rewrite Forall_forall in F. specialize (F x Hx). lra.
Qed.

(** the missing elements of [L] *)
Lemma missing (L K : list R) : exists M, forall x, count x M = Z.max 0 (count x L - count x K).
Proof.
  induction L as [|y L [M E]].
  - exists []. intros x. pose proof (count_nonneg x K). unfold count at 1 2. cbn. lia.
  - destruct (Z_lt_le_dec (count y L) (count y K)) as [H|H].
    + exists M. intros x. rewrite count_cons, E. destruct (Req_EM_T y x) as [->|]; lia.
    + exists (y :: M). intros x. rewrite !count_cons, E. destruct (Req_EM_T y x) as [->|]; lia.
Qed.

(** ** Values at lists that fill the gaps between their elements *)
Lemma ins_coef_pos U p k u P : mono U -> (U k <= u < U (k + 1)%Z)%R -> (forall i, (0 < P i)%R) -> forall i, (0 < ins_coef U p k u P i)%R.
Proof.
  intros M Hu Pp i. unfold ins_coef. destruct (Z.leb_spec i (k - nn p)) as [A|A]; [apply Pp|]. destruct (Z.leb_spec i k) as [B|B]; [|apply Pp].
  unfold step. pose proof (M i k ltac:(lia)). pose proof (M (k + 1) (i + nn p) ltac:(lia)).
  pose proof (Pp i). pose proof (Pp (i - 1)). apply Rdiv_lt_0_compat; [|lra].
  assert (0 < (U (i + nn p)%Z - u) * P (i - 1)%Z)%R by (apply Rmult_lt_0_compat; lra).
  assert (0 <= (u - U i) * P i)%R by (apply Rmult_le_pos; lra). lra.
Qed.
Lemma run_list l i n : 0 <= i + 1 -> i + Z.of_nat n < len l -> forall A L B, l = A ++ L ++ B -> len A = i + 1 -> length L = n -> run (kf l) i n = L.
Proof.
  intros Hi Hn A L B E LA LL. apply (znth_ext 0%R).
  - unfold len. rewrite run_length, LL. reflexivity.
  - intros k Hk. assert (len (run (kf l) i n) = Z.of_nat n) as Er by (unfold len; rewrite run_length; reflexivity). rewrite Er in Hk.
    assert (forall n i k, 0 <= k < Z.of_nat n -> znth 0%R (run (kf l) i n) k = kf l (i + 1 + k)) as G.
    { clear. induction n as [|n IH]; intros i k H; [lia|]. cbn [run]. destruct (Z.eq_dec k 0) as [->|].
      - rewrite znth_0. f_equal. lia.
      - rewrite znth_cons, IH by lia. f_equal. lia. }
    rewrite G by lia. rewrite kf_at by lia. rewrite E, at_znth, znth_app2 by lia. assert (len L = Z.of_nat n) by (unfold len; lia). rewrite znth_app1 by lia. f_equal. lia.
Qed.
Lemma permutation_of_counts (l l' : list R) : Permutation l l' -> forall x, count x l = count x l'.
Proof. intros H x. unfold count. rewrite (proj1 (Permutation_count_occ Req_EM_T l l') H). reflexivity. Qed.

Lemma pos_exact p K a P L : clamped p K -> brk K a -> (forall i, (0 < P i)%R) -> asc L -> len L = p ->
  (forall x, count x L <= count x K) -> (forall x, In x L -> (x <= kf K a \/ kf K (a + 1) <= x)%R) ->
  (forall x w, (x <= kf K a)%R -> In w L -> (w < x)%R -> count x K <= count x L) ->
  (forall x w, (kf K (a + 1) <= x)%R -> In w L -> (x < w)%R -> count x K <= count x L) ->
  (0 < bl (kf K) a L P)%R.
Proof.
  intros C B Pp S Lp C1 Sp C2 C3. pose proof (brk_range p K C a B) as Br. pose proof (clamped_mono _ _ C) as M. pose proof B as [Ba Bs].
  destruct (asc_split (kf K a) L S) as [L1 [L2 [E [H1 H2]]]].
  assert (forall x, In x L2 -> (kf K (a + 1)%Z <= x)%R) as H2'.
  { intros x Hx. destruct (Sp x) as [X|X]; [rewrite E; apply in_app_iff; right; exact Hx| |exact X]. specialize (H2 x Hx). lra. }
  assert (K = firstn (Z.to_nat (a + 1)) K ++ skipn (Z.to_nat (a + 1)) K) as EK by (symmetry; apply firstn_skipn).
  set (A1 := firstn (Z.to_nat (a + 1)) K) in *. set (A2 := skipn (Z.to_nat (a + 1)) K) in *.
  assert (forall x, In x A1 -> (x <= kf K a)%R) as G1.
  { intros x Hx. apply (In_znth 0%R) in Hx. destruct Hx as [i [Hi <-]]. unfold A1 in *. rewrite len_firstn in Hi. rewrite znth_firstn by lia.
    rewrite <- at_znth, <- kf_at by lia. apply M. lia. }
  assert (forall x, In x A2 -> (kf K (a + 1)%Z <= x)%R) as G2.
  { intros x Hx. apply (In_znth 0%R) in Hx. destruct Hx as [i [Hi <-]]. unfold A2 in *. rewrite len_skipn in Hi. rewrite znth_skipn by lia.
    rewrite <- at_znth, <- kf_at by lia. apply M. lia. }
  assert (asc K) as SK by (apply nondec_asc; apply (cl_sorted _ _ C)). unfold asc in SK. rewrite EK in SK. apply ss_app in SK. destruct SK as [SK1 [SK2 _]].
  unfold asc in S. rewrite E in S. apply ss_app in S. destruct S as [S1 [S2 _]].
  assert (forall x, (x <= kf K a)%R -> count x K = count x A1 /\ count x L = count x L1) as Q1.
  { intros x Hx. rewrite EK at 1. rewrite E, !count_app. rewrite (count_zero x A2), (count_zero x L2); [lia| |].
    - intros I. specialize (H2' x I). lra.
    - intros I. specialize (G2 x I). lra. }
  assert (forall x, (kf K (a + 1)%Z <= x)%R -> count x K = count x A2 /\ count x L = count x L2) as Q2.
  { intros x Hx. rewrite EK at 1. rewrite E, !count_app. rewrite (count_zero x A1), (count_zero x L1); [lia| |].
    - intros I. specialize (H1 x I). lra.
    - intros I. specialize (G1 x I). lra. }
  destruct (asc_suffix L1 A1 S1 SK1) as [A' EA].
  { intros x. destruct (Rle_lt_dec x (kf K a)) as [Hx|Hx].
    - destruct (Q1 x Hx) as [<- <-]. apply C1.
    - rewrite (count_zero x L1); [apply count_nonneg|]. intros I. specialize (H1 x I). lra. }
  { intros x w Hw Lt. destruct (Rle_lt_dec x (kf K a)) as [Hx|Hx].
    - destruct (Q1 x Hx) as [<- <-]. apply (C2 x w Hx); [rewrite E; apply in_app_iff; left; exact Hw|exact Lt].
    - rewrite (count_zero x A1); [apply count_nonneg|]. intros I. specialize (G1 x I). lra. }
  destruct (asc_prefix L2 A2 S2 SK2) as [B' EB].
  { intros x. destruct (Rle_lt_dec (kf K (a + 1)%Z) x) as [Hx|Hx].
    - destruct (Q2 x Hx) as [<- <-]. apply C1.
    - rewrite (count_zero x L2); [apply count_nonneg|]. intros I. specialize (H2' x I). lra. }
  { intros x w Hw Lt. destruct (Rle_lt_dec (kf K (a + 1)%Z) x) as [Hx|Hx].
    - destruct (Q2 x Hx) as [<- <-]. apply (C3 x w Hx); [rewrite E; apply in_app_iff; right; exact Hw|exact Lt].
    - rewrite (count_zero x A2); [apply count_nonneg|]. intros I. specialize (G2 x I). lra. }
  assert (len A' + len L1 = a + 1) as LA.
  { rewrite <- len_app, <- EA. unfold A1. rewrite len_firstn. lia. }
  assert (len L1 + len L2 = p) as LL by (rewrite <- len_app, <- E; exact Lp).
  assert (K = A' ++ L ++ B') as EF by (rewrite EK, EA, EB, E, <- !app_assoc; reflexivity).
  pose proof (f_equal len EF) as EL. rewrite !len_app, Lp in EL. pose proof (len_nonneg L1). pose proof (len_nonneg L2). pose proof (len_nonneg A'). pose proof (len_nonneg B').
  rewrite <- (run_list K (len A' - 1) (Z.to_nat p)) with (A := A') (L := L) (B := B'); try lia; try assumption.
  - rewrite bl_dual; [apply Pp|exact M|exact Bs|]. rewrite nn_of by lia. lia.
  - unfold len in Lp. lia.
Qed.

Lemma ins_list_count l l' k u : ins_list l l' k u -> 0 <= k < len l -> forall x, count x l' = count x l + (if Req_EM_T u x then 1 else 0).
Proof.
  intros I Hk x. assert (l' = firstn (Z.to_nat (k + 1)) l ++ u :: skipn (Z.to_nat (k + 1)) l) as ->.
  { pose proof I as [L _]. apply (znth_ext 0%R).
    - rewrite len_app, len_cons, len_firstn, len_skipn. lia.
    - intros i Hi. rewrite <- at_znth, (ins_list_at l l' k u i I) by lia. destruct (Z.leb_spec i k).
      + rewrite znth_app1 by (rewrite ?len_firstn; lia). rewrite znth_firstn by lia. apply at_znth.
      + rewrite znth_app2 by (rewrite len_firstn; lia). rewrite len_firstn. destruct (Z.eqb_spec i (k + 1)) as [->|].
        * replace (k + 1 - _) with 0 by lia. rewrite znth_0. reflexivity.
        * rewrite znth_cons by lia. rewrite znth_skipn by lia. rewrite at_znth. f_equal. lia. }
  rewrite <- (firstn_skipn (Z.to_nat (k + 1)) l) at 3. rewrite !count_app, count_cons. lia.
Qed.
Lemma pos_fill p L : asc L -> len L = p -> forall M K a P, clamped p K -> brk K a -> (forall i, (0 < P i)%R) ->
  (forall x, In x M -> In x L /\ (0 < x < 1)%R) ->
  (forall x, count x L <= count x K + count x M) -> (forall x, In x L -> (x <= kf K a \/ kf K (a + 1) <= x)%R) ->
  (forall x w, (x <= kf K a)%R -> In w L -> (w < x)%R -> count x K + count x M <= count x L) ->
  (forall x w, (kf K (a + 1) <= x)%R -> In w L -> (x < w)%R -> count x K + count x M <= count x L) ->
  (0 < bl (kf K) a L P)%R.
Proof.
  intros S Lp. induction M as [|u M IH]; intros K a P C B Pp HM C1 Sp C2 C3.
  - assert (forall x, count x (@nil R) = 0) as Z0 by reflexivity.
    apply (pos_exact p); try assumption; intros x; [specialize (C1 x)|intros w X I L0; specialize (C2 x w X I L0)|intros w X I L0; specialize (C3 x w X I L0)];
      rewrite Z0 in *; lia.
  - destruct (HM u ltac:(left; reflexivity)) as [Iu Hu]. destruct (span_find p K u C Hu) as [k [_ Ks]].
    destruct (insert_knots p K k u C Ks) as [K' [_ I]]. pose proof Ks as [Hk Hku]. pose proof (cl_degree _ _ C) as P0. pose proof (cl_len _ _ C).
    pose proof (ins_list_count K K' k u I ltac:(lia)) as Cn. pose proof I as [LK G].
    pose proof (clamped_mono _ _ C) as Mo. pose proof B as [Ba Bs].
    set (a' := if Rle_lt_dec u (kf K a) then a + 1 else a).
    assert (kf K' a' = kf K a /\ kf K' (a' + 1) = kf K (a + 1) /\ span_old k a' = a) as [Ea [Eb Eo]].
    { unfold a'. destruct (Rle_lt_dec u (kf K a)) as [H'|H'].
      - assert (k <= a). { destruct (Z_le_gt_dec k a); [assumption|]. pose proof (Mo (a + 1) k ltac:(lia)). lra. }
        rewrite !G. unfold span_old. split; [|split].
        + destruct (Z.eq_dec k a) as [->|].
          * rewrite ins_mid. lra.
          * rewrite ins_high by lia. f_equal. lia.
        + rewrite ins_high by lia. f_equal. lia.
        + destruct (Z.leb_spec (a + 1) k); lia.
      - assert (kf K (a + 1)%Z <= u)%R as H'' by (destruct (Sp u Iu); lra).
        assert (a + 1 <= k). { destruct (Z_le_gt_dec (a + 1) k); [assumption|]. pose proof (Mo (k + 1) (a + 1) ltac:(lia)). lra. }
        rewrite !G. unfold span_old. rewrite !ins_low by lia. split; [reflexivity|]. split; [reflexivity|]. destruct (Z.leb_spec a k); lia. }
    assert (0 < bl (kf K') a' L (ins_coef (kf K) (length L) k u P))%R as Gp.
    { apply (IH K' a').
      - apply (ins_clamped p K K' k u); assumption.
      - split; [unfold a'; destruct (Rle_lt_dec u (kf K a)); lia|]. rewrite Ea, Eb. exact Bs.
      - apply ins_coef_pos; [exact Mo|lra|exact Pp].
      - intros x Hx. apply HM. right. exact Hx.
      - intros x. specialize (C1 x). rewrite count_cons in C1. rewrite Cn. lia.
      - intros x Hx. rewrite Ea, Eb. apply Sp. exact Hx.
      - rewrite Ea. intros x w X Iw Lw. specialize (C2 x w X Iw Lw). rewrite count_cons in C2. rewrite Cn. lia.
      - rewrite Eb. intros x w X Iw Lw. specialize (C3 x w X Iw Lw). rewrite count_cons in C3. rewrite Cn. lia. }
    assert (kf K' = ins_knots (kf K) k u) as EF by (extensionality i; apply G).
    assert (kf K' a' < kf K' (a' + 1)%Z)%R as Bs' by (rewrite Ea, Eb; exact Bs).
    rewrite EF in Gp, Bs'. rewrite ins_bl in Gp; [|exact Mo|lra|lra|exact Bs']. rewrite Eo in Gp. exact Gp.
Qed.

(** ** Elevated values *)
Definition adm (K : list R) (a t : Z) (ts : list R) : Prop :=
  asc ts /\ (forall x, In x ts -> In x K) /\
  (forall x w, (x <= kf K a)%R -> In w ts -> (w < x)%R -> In x K -> count x K + t <= count x ts) /\
  (forall x w, (kf K (a + 1) <= x)%R -> In w ts -> (x < w)%R -> In x K -> count x K + t <= count x ts).
Lemma adm_drop K a t l1 y l2 : adm K a (t + 1) (l1 ++ y :: l2) -> adm K a t (l1 ++ l2).
Proof.
  intros [S [I [H1 H2]]].
  assert (forall x, In x (l1 ++ l2) -> In x (l1 ++ y :: l2)) as Sub.
  { intros x. rewrite !in_app_iff. intros [X|X]; [left; exact X|right; right; exact X]. }
  assert (forall x, count x (l1 ++ y :: l2) <= count x (l1 ++ l2) + 1) as Cn.
  { intros x. rewrite !count_app, count_cons. destruct (Req_EM_T y x); lia. }
  split; [|split; [|split]].
  - apply ss_app in S. destruct S as [S1 [S2 S3]]. apply ss_app. split; [exact S1|]. inversion S2; subst. split; [assumption|].
    intros u v Hu Hv. apply S3; [exact Hu|right; exact Hv].
  - intros x Hx. apply I. apply Sub. exact Hx.
  - intros x w X Iw Lw IK. specialize (H1 x w X (Sub w Iw) Lw IK). specialize (Cn x). lia.
  - intros x w X Iw Lw IK. specialize (H2 x w X (Sub w Iw) Lw IK). specialize (Cn x). lia.
Qed.
Lemma count_ends p K x : clamped p K -> x = 0%R \/ x = 1%R -> p + 1 <= count x K.
Proof.
  intros C H. pose proof (cl_degree _ _ C). pose proof (cl_len _ _ C). destruct H as [-> | ->].
  - pose proof (count_run K 0%R 0 p ltac:(lia) ltac:(lia)) as R.
    assert (firstn (Z.to_nat (p + 1)) K = repeat 0%R (Z.to_nat (p + 1))) as E.
    { apply (znth_ext 0%R); [rewrite len_firstn, len_repeat; lia|]. intros i Hi. rewrite len_firstn in Hi. rewrite znth_firstn, znth_repeat by lia.
      rewrite <- at_znth. apply (cl_zero _ _ C). lia. }
    rewrite <- (firstn_skipn (Z.to_nat (p + 1)) K), count_app, E, count_repeat. destruct (Req_EM_T 0 0); [|congruence].
    pose proof (count_nonneg 0%R (skipn (Z.to_nat (p + 1)) K)). lia.
  - rewrite <- (firstn_skipn (Z.to_nat (len K - p - 1)) K), count_app, (skipn_ones p K C), count_repeat. destruct (Req_EM_T 1 1); [|congruence].
    pose proof (count_nonneg 1%R (firstn (Z.to_nat (len K - p - 1)) K)). lia.
Qed.
Lemma clamped_In p K x : clamped p K -> In x K -> (0 <= x <= 1)%R.
Proof.
  intros C I. apply (In_znth 0%R) in I. destruct I as [i [Hi <-]]. rewrite <- at_znth. pose proof (cl_degree _ _ C). pose proof (cl_len _ _ C).
  pose proof (cl_sorted _ _ C 0 i ltac:(lia) ltac:(lia)) as A. pose proof (cl_sorted _ _ C i (len K - 1) ltac:(lia) ltac:(lia)) as B.
  rewrite (cl_zero _ _ C) in A by lia. rewrite (cl_one _ _ C (len K - 1)) in B by lia. lra.
Qed.
Lemma brk_gap p K a x : clamped p K -> brk K a -> In x K -> (x <= kf K a \/ kf K (a + 1) <= x)%R.
Proof.
  intros C [Ba _] I. apply (In_znth 0%R) in I. destruct I as [i [Hi <-]]. rewrite <- at_znth, <- kf_at by lia.
  destruct (Z_le_gt_dec i a); [left|right]; apply (clamped_mono _ _ C); lia.
Qed.
Lemma adm_base p K a P L : clamped p K -> brk K a -> (forall i, (0 < P i)%R) -> len L = p -> adm K a 0 L -> (0 < bl (kf K) a L P)%R.
Proof.
  intros C B Pp Lp [S [I [H1 H2]]]. destruct (missing L K) as [M EM].
  assert (forall x l, count x l <= len l) as Cl.
  { intros x l. unfold count, len. pose proof (count_occ_bound Req_EM_T x l). lia. }
  apply (pos_fill p L S Lp M K a P C B Pp).
  - intros x Hx. apply count_In in Hx. rewrite EM in Hx. pose proof (count_nonneg x K).
    assert (In x L) as Ix by (apply count_In; lia). split; [exact Ix|]. pose proof (clamped_In p K x C (I x Ix)).
    specialize (Cl x L). pose proof (fun H => count_ends p K x C H) as E.
    destruct (Req_dec x 0) as [X|X]; [specialize (E (or_introl X)); lia|]. destruct (Req_dec x 1) as [Y|Y]; [specialize (E (or_intror Y)); lia|]. lra.
  - intros x. rewrite EM. lia.
  - intros x Hx. apply (brk_gap p); [exact C|exact B|apply I; exact Hx].
  - intros x w X Iw Lw. rewrite EM. pose proof (count_nonneg x L). destruct (in_dec Req_EM_T x K) as [IK|NK].
    + specialize (H1 x w X Iw Lw IK). lia.
    + rewrite (count_zero x K NK). lia.
  - intros x w X Iw Lw. rewrite EM. pose proof (count_nonneg x L). destruct (in_dec Req_EM_T x K) as [IK|NK].
    + specialize (H2 x w X Iw Lw IK). lia.
    + rewrite (count_zero x K NK). lia.
Qed.
Lemma elev_pos p K a P : clamped p K -> brk K a -> (forall i, (0 < P i)%R) -> forall t ts, len ts = p + Z.of_nat t -> adm K a (Z.of_nat t) ts ->
  (0 < elev t (fun m => bl (kf K) a m P) ts)%R.
Proof.
  intros C B Pp. pose proof (cl_degree _ _ C) as P0. induction t as [|t IH]; intros ts L A.
  - cbn [elev]. apply (adm_base p); try assumption. lia.
  - cbn [elev]. apply Rdiv_lt_0_compat.
    + apply osum_pos_app; [intros ->; change (len (@nil R)) with 0 in L; lia|]. intros l1 x l2 E. subst ts. apply IH.
      * rewrite len_app, len_cons in L. rewrite len_app. lia.
      * apply (adm_drop K a _ l1 x l2). replace (Z.of_nat t + 1) with (Z.of_nat (S t)) by lia. exact A.
    + apply lt_0_INR. unfold len in L. lia.
Qed.
