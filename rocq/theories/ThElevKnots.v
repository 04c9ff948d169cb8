(** The knot vector of degree elevation: every distinct knot gets [t] more copies. *)
From Coq Require Import Reals ZArith List Lra Lia Permutation Sorted.
From Verif Require Import Outcome SpecCore SpecBasis ThOutcome ThKnots ThMath ThSum ThVec ThSpline ThBasis ThCurve ThInsert ThReverse.
Import ListNotations.
Open Scope Z_scope.

Fixpoint ek (t : nat) (l : list R) : list R :=
  match l with
  | [] => []
  | x :: r => x :: (match r with y :: _ => if Req_EM_T x y then ek t r else repeat x t ++ ek t r | [] => repeat x t end)
  end.

Lemma ek_app t l2 : forall l1, (forall x y a b, l1 = a ++ [x] -> l2 = y :: b -> x <> y) -> ek t (l1 ++ l2) = ek t l1 ++ ek t l2.
Proof.
  induction l1 as [|x l1 IH]; intros H; [reflexivity|].
  assert (ek t (l1 ++ l2) = ek t l1 ++ ek t l2) as E.
  { apply IH. intros u v a b E1 E2. apply (H u v (x :: a) b); [rewrite E1; reflexivity|exact E2]. }
  destruct l1 as [|z l1].
  - cbn [app] in *. destruct l2 as [|y l2].
    + cbn [ek]. rewrite app_nil_r. reflexivity.
    + change (ek t (x :: y :: l2)) with (x :: (if Req_EM_T x y then ek t (y :: l2) else repeat x t ++ ek t (y :: l2))).
      destruct (Req_EM_T x y) as [->|]; [|reflexivity]. exfalso. apply (H y y [] l2); reflexivity.
  - change (ek t ((x :: z :: l1) ++ l2)) with (x :: (if Req_EM_T x z then ek t ((z :: l1) ++ l2) else repeat x t ++ ek t ((z :: l1) ++ l2))).
    change (ek t (x :: z :: l1)) with (x :: (if Req_EM_T x z then ek t (z :: l1) else repeat x t ++ ek t (z :: l1))).
    rewrite E. destruct (Req_EM_T x z); [reflexivity|]. cbn [app]. rewrite app_assoc. reflexivity.
Qed.
Lemma ek_repeat t x n : ek t (repeat x (S n)) = repeat x (S n + t).
Proof.
  induction n as [|n IH]; [reflexivity|].
  change (ek t (repeat x (S (S n)))) with (x :: (if Req_EM_T x x then ek t (repeat x (S n)) else repeat x t ++ ek t (repeat x (S n)))).
  destruct (Req_EM_T x x); [|congruence]. rewrite IH. reflexivity.
Qed.
Lemma ek_In t x : forall l, In x (ek t l) <-> In x l.
Proof.
  induction l as [|y l IH]; [reflexivity|]. destruct l as [|z l].
  - cbn [ek]. split.
    + intros [->|H]; [left; reflexivity|]. apply repeat_spec in H. left. auto.
    + intros [->|[]]. left. reflexivity.
  - change (ek t (y :: z :: l)) with (y :: (if Req_EM_T y z then ek t (z :: l) else repeat y t ++ ek t (z :: l))).
    split; (intros [->|H]; [left; reflexivity|]).
    + destruct (Req_EM_T y z); [right; apply IH; exact H|]. apply in_app_iff in H. destruct H as [H|H].
      * apply repeat_spec in H. left. auto.
      * right. apply IH. exact H.
    + right. apply IH in H. destruct (Req_EM_T y z); [exact H|]. apply in_app_iff. right. exact H.
Qed.
Lemma nondec_cons x l : nondecreasing (x :: l) <-> (forall z, In z l -> (x <= z)%R) /\ nondecreasing l.
Proof.
  rewrite nondecreasing_cons. split.
  - intros [N H]. split; [|exact N]. intros z Hz. destruct l as [|y l]; [destruct Hz|].
    specialize (H ltac:(discriminate)). apply (In_znth 0%R) in Hz. destruct Hz as [i [Hi <-]]. rewrite <- at_znth.
    specialize (N 0 i ltac:(lia) ltac:(lia)). lra.
  - intros [H N]. split; [exact N|]. intros Ne. apply H. rewrite at_znth. apply znth_In. destruct l; [congruence|].
    rewrite len_cons. pose proof (len_nonneg l). lia.
Qed.
Lemma ek_nondec t : forall l, nondecreasing l -> nondecreasing (ek t l).
Proof.
  induction l as [|x l IH]; intros N; [exact N|]. apply nondec_cons in N. destruct N as [N1 N2].
  destruct l as [|y l].
  - cbn [ek]. change (x :: repeat x t) with (repeat x (S t)). apply nondecreasing_repeat.
  - change (ek t (x :: y :: l)) with (x :: (if Req_EM_T x y then ek t (y :: l) else repeat x t ++ ek t (y :: l))).
    assert (forall z, In z (ek t (y :: l)) -> (x <= z)%R) as G.
    { intros z Hz. apply ek_In in Hz. apply N1. exact Hz. }
    apply nondec_cons. destruct (Req_EM_T x y); (split; [|]).
    + exact G.
    + apply IH. exact N2.
    + intros z Hz. apply in_app_iff in Hz. destruct Hz as [Hz|Hz]; [apply repeat_spec in Hz; subst; lra|apply G; exact Hz].
    + apply nondecreasing_app; [apply nondecreasing_repeat|apply IH; exact N2|].
      intros a b Ha Hb. apply repeat_spec in Ha. subst a. apply G. exact Hb.
Qed.
Lemma count_cons x y l : count x (y :: l) = (if Req_EM_T y x then 1 else 0) + count x l.
Proof. unfold count. cbn [count_occ]. destruct (Req_EM_T y x); lia. Qed.
Lemma count_nonneg x l : 0 <= count x l.
Proof. unfold count. lia. Qed.
Lemma count_zero x l : ~ In x l -> count x l = 0.
Proof. intros N. apply (count_occ_not_In Req_EM_T) in N. unfold count. lia. Qed.
Lemma count_In x l : In x l <-> 0 < count x l.
Proof. rewrite (count_occ_In Req_EM_T). unfold count. lia. Qed.
Lemma ek_count t x : forall l, nondecreasing l -> In x l -> count x (ek t l) = count x l + Z.of_nat t.
Proof.
  induction l as [|y l IH]; intros N I; [destruct I|]. apply nondec_cons in N. destruct N as [N1 N2].
  destruct l as [|z l].
  - destruct I as [->|[]]. cbn [ek]. rewrite !count_cons, count_repeat. unfold count. cbn. destruct (Req_EM_T x x); [lia|congruence].
  - change (ek t (y :: z :: l)) with (y :: (if Req_EM_T y z then ek t (z :: l) else repeat y t ++ ek t (z :: l))).
    rewrite (count_cons x y (z :: l)), count_cons. destruct (Req_EM_T y z) as [E|E].
    + rewrite IH; [lia|exact N2|]. destruct I as [<-|I]; [left; auto|exact I].
    + rewrite count_app, count_repeat. destruct (Req_EM_T y x) as [->|Ne].
      * assert (~ In x (z :: l)) as Nx.
        { intros H. assert (x <= z)%R by (apply N1; left; reflexivity). destruct H as [H|H]; [congruence|].
          apply nondec_cons in N2. destruct N2 as [N2 _]. specialize (N2 x H). lra. }
        rewrite (count_zero x (z :: l) Nx), (count_zero x (ek t (z :: l))); [lia|]. rewrite ek_In. exact Nx.
      * rewrite IH; [lia|exact N2|]. destruct I as [H|I]; [congruence|exact I].
Qed.
Lemma ek_len t : forall l, nondecreasing l -> len (ek t l) = len l + Z.of_nat t * len (nodup Req_EM_T l).
Proof.
  induction l as [|y l IH]; intros N; [unfold len; cbn; lia|]. apply nondec_cons in N. destruct N as [N1 N2].
  destruct l as [|z l].
  - unfold len. cbn. rewrite repeat_length. lia.
  - change (ek t (y :: z :: l)) with (y :: (if Req_EM_T y z then ek t (z :: l) else repeat y t ++ ek t (z :: l))).
    specialize (IH N2). rewrite !len_cons. rewrite len_cons in IH. remember (z :: l) as m. cbn [nodup].
    destruct (Req_EM_T y z) as [E|E].
    + rewrite IH. destruct (in_dec Req_EM_T y m) as [_|X]; [lia|]. exfalso. apply X. subst. left. auto.
    + destruct (in_dec Req_EM_T y m) as [X|_].
      * exfalso. subst m. assert (y <= z)%R by (apply N1; left; reflexivity). destruct X as [X|X]; [congruence|].
        apply nondec_cons in N2. destruct N2 as [N2 _]. specialize (N2 y X). lra.
      * rewrite len_app, IH, len_cons. replace (len (repeat y t)) with (Z.of_nat t) by (unfold len; rewrite repeat_length; reflexivity). lia.
Qed.

Section Positions.
  Variables (p t : Z) (K : list R).
  Hypothesis C : clamped p K.
  Hypothesis T : 0 <= t.
  Definition EV : list R := ek (Z.to_nat t) K.
  Definition pos (a : Z) : Z := len (ek (Z.to_nat t) (firstn (Z.to_nat (a + 1)) K)) - 1.
  (** index of a non-empty span *)
  Definition brk (a : Z) : Prop := 0 <= a < len K - 1 /\ (kf K a < kf K (a + 1)%Z)%R.

  Lemma brk_range a : brk a -> p <= a <= len K - p - 2.
  Proof.
    intros [H1 H2]. pose proof (cl_degree _ _ C). pose proof (cl_len _ _ C). rewrite !kf_at in H2 by lia. split.
    - destruct (Z_lt_le_dec a p); [|lia]. rewrite !(cl_zero _ _ C) in H2 by lia. lra.
    - destruct (Z_lt_le_dec (len K - p - 2) a); [|lia]. rewrite !(cl_one _ _ C) in H2 by lia. lra.
  Qed.
  Lemma brk_first : brk p.
  Proof.
    pose proof (cl_degree _ _ C). pose proof (cl_len _ _ C). split; [lia|]. rewrite !kf_at by lia. rewrite (cl_zero _ _ C) by lia.
    apply (cl_first _ _ C).
  Qed.
  Lemma brk_last : brk (len K - p - 2).
  Proof.
    pose proof (cl_degree _ _ C). pose proof (cl_len _ _ C). split; [lia|]. rewrite !kf_at by lia. rewrite (cl_one _ _ C (len K - p - 2 + 1)) by lia.
    apply (cl_last _ _ C).
  Qed.
  Lemma firstn_last a : 0 <= a < len K -> firstn (Z.to_nat (a + 1)) K = firstn (Z.to_nat a) K ++ [kf K a].
  Proof using.
    intros H. apply (znth_ext 0%R).
    - rewrite len_app. rewrite len_cons. rewrite len_nil. rewrite !len_firstn. lia.
    - intros i Hi. rewrite len_firstn in Hi. rewrite znth_firstn by lia. destruct (Z.eq_dec i a) as [->|].
      + rewrite znth_app2 by (rewrite len_firstn; lia). rewrite len_firstn. replace (a - Z.min (Z.max a 0) (len K)) with 0 by lia.
        rewrite znth_0. rewrite <- at_znth, kf_at by lia. reflexivity.
      + rewrite znth_app1 by (rewrite ?len_firstn; lia). rewrite znth_firstn by lia. reflexivity.
  Qed.
  Lemma skipn_first a : 0 <= a < len K -> skipn (Z.to_nat a) K = kf K a :: skipn (Z.to_nat (a + 1)) K.
  Proof using.
    intros H. apply (znth_ext 0%R).
    - rewrite len_cons, !len_skipn. lia.
    - intros i Hi. rewrite len_skipn in Hi. rewrite znth_skipn by lia. destruct (Z.eq_dec i 0) as [->|].
      + rewrite znth_0, <- at_znth, kf_at by lia. f_equal. lia.
      + rewrite znth_cons, znth_skipn by lia. f_equal. lia.
  Qed.
  Lemma ev_split a : brk a -> EV = ek (Z.to_nat t) (firstn (Z.to_nat (a + 1)) K) ++ ek (Z.to_nat t) (skipn (Z.to_nat (a + 1)) K).
  Proof using.
    intros [H1 H2]. unfold EV. rewrite <- (firstn_skipn (Z.to_nat (a + 1)) K) at 1. apply ek_app. intros x y l1 l2 E1 E2.
    rewrite firstn_last in E1 by lia. rewrite skipn_first in E2 by lia. injection E2 as E2 _. apply app_inj_tail in E1. destruct E1 as [_ E1]. lra.
  Qed.
  Lemma firstn_run a0 a2 : 0 <= a0 + 1 -> a0 <= a2 < len K -> (forall i, a0 < i <= a2 -> kf K i = kf K a2) ->
    firstn (Z.to_nat (a2 + 1)) K = firstn (Z.to_nat (a0 + 1)) K ++ repeat (kf K a2) (Z.to_nat (a2 - a0)).
  Proof using.
    intros H0 H E. apply (znth_ext 0%R).
    - rewrite len_app, !len_firstn, len_repeat. lia.
    - intros i Hi. rewrite len_firstn in Hi. rewrite znth_firstn by lia. destruct (Z_lt_le_dec i (a0 + 1)).
      + rewrite znth_app1 by (rewrite ?len_firstn; lia). rewrite znth_firstn by lia. reflexivity.
      + rewrite znth_app2 by (rewrite len_firstn; lia). rewrite len_firstn. rewrite znth_repeat by lia. rewrite <- (E i) by lia.
        rewrite <- at_znth, kf_at by lia. reflexivity.
  Qed.
  Lemma ek_app_run a0 a2 : brk a0 -> a0 < a2 < len K -> (forall i, a0 < i <= a2 -> kf K i = kf K a2) ->
    ek (Z.to_nat t) (firstn (Z.to_nat (a2 + 1)) K) = ek (Z.to_nat t) (firstn (Z.to_nat (a0 + 1)) K) ++ repeat (kf K a2) (Z.to_nat (a2 - a0 + t)).
  Proof using T.
    intros [H0 H1] H E. rewrite (firstn_run a0 a2) by (lia || assumption). rewrite ek_app.
    - f_equal. replace (Z.to_nat (a2 - a0)) with (S (Z.to_nat (a2 - a0 - 1))) by lia. rewrite ek_repeat. f_equal. lia.
    - intros x y l1 l2 E1 E2. rewrite firstn_last in E1 by lia. apply app_inj_tail in E1. destruct E1 as [_ E1].
      replace (Z.to_nat (a2 - a0)) with (S (Z.to_nat (a2 - a0 - 1))) in E2 by lia. cbn [repeat] in E2. injection E2 as E2 _.
      rewrite (E (a0 + 1)) in H1 by lia. lra.
  Qed.
  (** two consecutive non-empty spans *)
  Definition adj (a0 a2 : Z) : Prop := brk a0 /\ brk a2 /\ a0 < a2 /\ forall i, a0 < i <= a2 -> kf K i = kf K a2.
  Lemma pos_adj a0 a2 : adj a0 a2 -> pos a2 = pos a0 + (a2 - a0) + t.
  Proof using T.
    intros [H0 [H2 [L E]]]. unfold pos. rewrite (ek_app_run a0 a2 H0) by (destruct H2; lia || assumption). rewrite len_app, len_repeat. lia.
  Qed.
  Lemma pos_nonneg a : brk a -> 0 <= pos a.
  Proof using T.
    intros [H _]. unfold pos. assert (In (kf K a) (ek (Z.to_nat t) (firstn (Z.to_nat (a + 1)) K))) as I.
    { apply ek_In. rewrite firstn_last by lia. apply in_app_iff. right. left. reflexivity. }
    apply (In_znth 0%R) in I. destruct I as [i [Hi _]]. lia.
  Qed.
  Lemma ev_len a : brk a -> len EV = pos a + 1 + len (ek (Z.to_nat t) (skipn (Z.to_nat (a + 1)) K)).
  Proof using. intros B. rewrite (ev_split a B), len_app. unfold pos. lia. Qed.
  Lemma ev_low a i : brk a -> 0 <= i <= pos a -> kf EV i = at_ (ek (Z.to_nat t) (firstn (Z.to_nat (a + 1)) K)) i.
  Proof using.
    intros B H. pose proof (ev_len a B). pose proof (len_nonneg (ek (Z.to_nat t) (skipn (Z.to_nat (a + 1)) K))). rewrite kf_at by lia.
    rewrite (ev_split a B), !at_znth. rewrite znth_app1; [reflexivity| |lia]. unfold pos in *. lia.
  Qed.
  Lemma ek_last l x : exists r, ek (Z.to_nat t) (l ++ [x]) = r ++ [x].
  Proof using.
    clear. generalize (Z.to_nat t). intros n. induction l as [|y l IH].
    - cbn. replace (x :: repeat x n) with (repeat x n ++ [x]) by apply repeat_snoc. eexists. reflexivity.
    - destruct IH as [r E]. cbn [app]. destruct (l ++ [x]) as [|z m] eqn:El; [destruct l; discriminate|].
      change (ek n (y :: z :: m)) with (y :: (if Req_EM_T y z then ek n (z :: m) else repeat y n ++ ek n (z :: m))). rewrite E.
      destruct (Req_EM_T y z); [exists (y :: r); reflexivity|]. exists (y :: repeat y n ++ r). cbn [app]. rewrite app_assoc. reflexivity.
  Qed.
  Lemma ev_at_pos a : brk a -> kf EV (pos a) = kf K a.
  Proof using T.
    intros B. pose proof (pos_nonneg a B). rewrite (ev_low a) by (assumption || lia). destruct B as [B _]. unfold pos. rewrite firstn_last by lia.
    destruct (ek_last (firstn (Z.to_nat a) K) (kf K a)) as [r ->]. rewrite len_app, at_znth, znth_app2.
    - change (len [kf K a]) with 1. rewrite <- (znth_0 0%R (kf K a) []) at 2. f_equal. lia.
    - change (len [kf K a]) with 1. lia.
  Qed.
  Lemma ek_head x l : exists r, ek (Z.to_nat t) (x :: l) = x :: r.
  Proof using. clear. eexists. reflexivity. Qed.
  Lemma ev_after_pos a : brk a -> kf EV (pos a + 1) = kf K (a + 1).
  Proof using T.
    intros B. pose proof (ev_len a B) as L. pose proof (pos_nonneg a B). pose proof (ev_split a B) as S. destruct B as [B _].
    rewrite (skipn_first (a + 1)) in L, S by lia. destruct (ek_head (kf K (a + 1)) (skipn (Z.to_nat (a + 1 + 1)) K)) as [r E]. rewrite E in L, S.
    rewrite len_cons in L. pose proof (len_nonneg r). rewrite kf_at by lia. rewrite S, at_znth, znth_app2 by (unfold pos; lia).
    replace (pos a + 1 - _) with 0 by (unfold pos; lia). apply znth_0.
  Qed.
  Lemma ev_between a0 a2 i : adj a0 a2 -> pos a0 < i <= pos a2 -> kf EV i = kf K a2.
  Proof using T.
    intros A H. pose proof (pos_adj _ _ A). destruct A as [B0 [B2 [L E]]]. pose proof (pos_nonneg a0 B0). rewrite (ev_low a2) by (assumption || lia).
    rewrite (ek_app_run a0 a2 B0) by (destruct B2; lia || assumption). rewrite at_znth, znth_app2 by (unfold pos in *; lia).
    apply znth_repeat. unfold pos in *. lia.
  Qed.
  Lemma pos_first : pos p = p + t.
  Proof.
    pose proof (cl_degree _ _ C). pose proof (cl_len _ _ C). unfold pos. rewrite (firstn_run (-1) p) by (try lia; intros i Hi; rewrite !kf_at, !(cl_zero _ _ C) by lia; reflexivity).
    cbn [Z.add Z.to_nat firstn app Pos.add]. change (Z.to_nat (-1 + 1)) with 0%nat. cbn [firstn app].
    replace (Z.to_nat (p - -1)) with (S (Z.to_nat p)) by lia. rewrite ek_repeat. unfold len. rewrite repeat_length. lia.
  Qed.
  Lemma ev_zero i : 0 <= i <= p + t -> kf EV i = 0%R.
  Proof.
    intros H. pose proof pos_first as P1. pose proof (cl_degree _ _ C). pose proof (cl_len _ _ C). rewrite (ev_low p) by (apply brk_first || lia).
    rewrite (firstn_run (-1) p) by (try lia; intros j Hi; rewrite !kf_at, !(cl_zero _ _ C) by lia; reflexivity).
    change (Z.to_nat (-1 + 1)) with 0%nat. cbn [firstn app]. replace (Z.to_nat (p - -1)) with (S (Z.to_nat p)) by lia. rewrite ek_repeat.
    replace (S (Z.to_nat p) + Z.to_nat t)%nat with (Z.to_nat (p + t + 1)) by lia. rewrite at_znth, znth_repeat by lia.
    rewrite kf_at, (cl_zero _ _ C) by lia. reflexivity.
  Qed.
  Lemma skipn_ones : skipn (Z.to_nat (len K - p - 1)) K = repeat 1%R (Z.to_nat (p + 1)).
  Proof.
    pose proof (cl_degree _ _ C). pose proof (cl_len _ _ C). apply (znth_ext 0%R).
    - rewrite len_skipn, len_repeat. lia.
    - intros i Hi. rewrite len_skipn in Hi. rewrite znth_skipn, znth_repeat by lia. rewrite <- at_znth. apply (cl_one _ _ C). lia.
  Qed.
  Lemma ev_len_last : len EV = pos (len K - p - 2) + 1 + (p + t + 1).
  Proof.
    pose proof (cl_degree _ _ C). rewrite (ev_len _ brk_last). replace (len K - p - 2 + 1) with (len K - p - 1) by lia. rewrite skipn_ones.
    replace (Z.to_nat (p + 1)) with (S (Z.to_nat p)) by lia. rewrite ek_repeat. replace (len (repeat 1%R (S (Z.to_nat p) + Z.to_nat t))) with (p + t + 1) by (unfold len; rewrite repeat_length; lia). lia.
  Qed.
  Lemma ev_one i : pos (len K - p - 2) < i -> kf EV i = 1%R.
  Proof.
    intros H. pose proof (cl_degree _ _ C). pose proof (pos_nonneg _ brk_last). destruct (Z_lt_le_dec i (len EV)) as [L|L]; [|apply kf_high; exact L].
    pose proof ev_len_last. rewrite kf_at by lia. rewrite (ev_split _ brk_last), at_znth, znth_app2 by (unfold pos in *; lia).
    replace (len K - p - 2 + 1) with (len K - p - 1) by lia. rewrite skipn_ones.
    replace (Z.to_nat (p + 1)) with (S (Z.to_nat p)) by lia. rewrite ek_repeat.
    replace (S (Z.to_nat p) + Z.to_nat t)%nat with (Z.to_nat (p + t + 1)) by lia. apply znth_repeat.
    unfold pos in *. replace (len K - p - 2 + 1) with (len K - p - 1) in * by lia. lia.
  Qed.
  Lemma ev_nondec : nondecreasing EV.
  Proof. apply ek_nondec. apply (cl_sorted _ _ C). Qed.
  Lemma ev_clamped : clamped (p + t) EV.
  Proof.
    pose proof (cl_degree _ _ C). pose proof (cl_len _ _ C). pose proof pos_first as P1. pose proof ev_len_last as L.
    pose proof (ev_len p brk_first) as Lf. pose proof (pos_nonneg _ brk_last).
    pose proof (ev_after_pos p brk_first) as A. pose proof (ev_at_pos _ brk_last) as B. pose proof brk_first as [_ F]. pose proof brk_last as [_ G].
    assert (kf EV (p + t) = 0%R) as Z0 by (apply ev_zero; lia).
    assert (pos p <= pos (len K - p - 2)) as Le.
    { destruct (Z_le_gt_dec (pos p) (pos (len K - p - 2))); [assumption|exfalso].
      pose proof (ev_one (pos p) ltac:(lia)) as X. rewrite P1 in X. lra. }
    rewrite kf_at in F, G by lia. rewrite kf_at in G by lia. rewrite (cl_zero _ _ C) in F by lia. rewrite (cl_one _ _ C (_ + 1)) in G by lia.
    constructor.
    - lia.
    - lia.
    - apply ev_nondec.
    - intros i Hi. rewrite <- kf_at by lia. apply ev_zero. lia.
    - rewrite <- kf_at by lia. rewrite <- P1, A. exact F.
    - rewrite <- kf_at by lia. replace (len EV - (p + t) - 2) with (pos (len K - p - 2)) by lia. rewrite B. rewrite kf_at by lia. exact G.
    - intros i Hi. rewrite <- kf_at by lia. apply ev_one. lia.
  Qed.
  (** the break before [a] *)
  Lemma prev_break a' a : brk a' -> brk a -> a' < a -> exists a0, adj a0 a /\ a' <= a0.
  Proof.
    intros B' B L.
    assert (forall n k, a - Z.of_nat n = k -> a' < k -> (forall i, k <= i <= a -> kf K i = kf K a) -> exists a0, adj a0 a /\ a' <= a0) as G.
    { pose proof (clamped_mono _ _ C) as M.
      assert (forall d k, Z.to_nat (k - a') = d -> a' < k <= a -> (forall i, k <= i <= a -> kf K i = kf K a) -> exists a0, adj a0 a /\ a' <= a0) as G.
      { induction d as [|d IH]; intros k Ed Hk E; [lia|].
        pose proof (M (k - 1) k ltac:(lia)) as [Lt|Eq].
        - exists (k - 1). split; [|lia]. split; [|split; [exact B|split; [lia|]]].
          + split; [destruct B, B'; lia|]. replace (k - 1 + 1) with k by lia. exact Lt.
          + intros i Hi. apply E. lia.
        - destruct (Z.eq_dec (k - 1) a') as [Ek|Nk].
          + destruct B' as [_ B']. rewrite <- Ek in B'. replace (k - 1 + 1) with k in B' by lia. lra.
          + apply (IH (k - 1)); try lia. intros i Hi. destruct (Z.eq_dec i (k - 1)) as [->|]; [|apply E; lia].
            rewrite Eq. apply E. lia. }
      intros n k Ek Hk E. apply (G _ k eq_refl); [lia|exact E]. }
    apply (G 0%nat a); [lia|exact L|]. intros i Hi. f_equal. lia.
  Qed.
  Lemma pos_lt a' a : brk a' -> brk a -> a' < a -> pos a' < pos a.
  Proof.
    intros B' B L. remember (Z.to_nat (a - a')) as n eqn:En. revert a B L En. induction n as [n IH] using lt_wf_ind. intros a B L En.
    destruct (prev_break a' a B' B L) as [a0 [A Le]]. pose proof (pos_adj _ _ A). destruct A as [B0 [_ [L0 _]]].
    destruct (Z.eq_dec a0 a') as [->|]; [lia|]. specialize (IH (Z.to_nat (a0 - a')) ltac:(lia) a0 B0 ltac:(lia) eq_refl). lia.
  Qed.
  Lemma pos_le a' a : brk a' -> brk a -> a' <= a -> pos a' <= pos a.
  Proof. intros B' B L. destruct (Z.eq_dec a' a) as [->|]; [lia|]. pose proof (pos_lt a' a B' B ltac:(lia)). lia. Qed.
End Positions.
