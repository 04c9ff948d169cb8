(** Knot removal: which accesses stay inside the arrays, whatever the numbers are. *)
From Coq Require Import ZArith List Lia Bool.
From Verif Require Import Outcome Num ModelCore ModelCurve ModelAlgo SpecCore ThOutcome ThVec ThElevCode ThSafe.
Import ListNotations.
Open Scope Z_scope.

Lemma runs_while {S} (P : S -> Prop) (mu : S -> Z) (c : S -> bool) cond body : forall fuel s,
  P s -> mu s <= Z.of_nat fuel -> (forall s, cond s = Ok (c s)) -> (forall s, P s -> c s = true -> 0 < mu s) ->
  (forall s, P s -> c s = true -> runs (body s) (fun s' => P s' /\ mu s' < mu s)) -> runs (while_ fuel cond body s) (fun s' => P s' /\ c s' = false).
Proof.
  induction fuel as [|fuel IH]; intros s Ps Hm Hc Hp Hb; cbn [while_]; rewrite Hc; cbn [bind]; destruct (c s) eqn:E.
  - specialize (Hp s Ps E). lia.
  - apply runs_ok. auto.
  - eapply runs_bind; [apply (Hb s Ps E)|]. cbv beta. intros s' [Ps' Hl]. apply IH; try assumption. lia.
  - apply runs_ok. auto.
Qed.
Lemma runs_for_at {S} (P : Z -> S -> Prop) (Q : S -> Prop) lo hi (body : Z -> S -> outcome S) s : P lo s -> (forall k s, lo <= k -> P k s -> Q s) ->
  (forall i s, lo <= i < hi -> P i s -> runs (body i s) (P (i + 1))) -> runs (for_up lo hi body s) Q.
Proof.
  intros H0 HQ Hb. destruct (Z_le_dec lo hi).
  - destruct (for_up_inv P lo hi body s l H0) as [s' [E Q1]]; [intros i s0 Hi Ps; apply Hb; assumption|]. exists s'. split; [exact E|]. apply (HQ hi); assumption.
  - rewrite for_up_empty by lia. apply runs_ok. apply (HQ lo); [lia|exact H0].
Qed.
(** cell [k] of a partly written buffer has been written *)
Definition written {A} (l : list (option A)) (k : Z) : Prop := exists a, vget l k = Ok (Some a).
Lemma runs_ugets {A} (l : list (option A)) k : written l k -> runs (ugets l k) (fun _ => True).
Proof. intros [a E]. unfold ugets. rewrite E. apply runs_ok. exact I. Qed.
Lemma runs_usets {A} (l : list (option A)) k x : 0 <= k < len l -> runs (usets l k x) (fun l' => len l' = len l /\ written l' k /\ forall j, written l j -> written l' j).
Proof.
  intros H. unfold usets. destruct (vset_spec l k (Some x) H) as [l' [E [L [G1 G2]]]]. exists l'. split; [exact E|]. split; [exact L|].
  assert (written l' k) as W by (exists x; exact G1). split; [exact W|]. intros j [a Ea]. destruct (Z.eq_dec j k) as [->|N]; [exact W|]. exists a. rewrite G2 by exact N. exact Ea.
Qed.
Lemma vget_out {A} (l : list A) i : i < 0 \/ len l <= i -> vget l i = Undefined OutOfBounds.
Proof.
  intros H. unfold vget. destruct (Z.ltb_spec i 0); [reflexivity|]. destruct H; [lia|].
  assert (nth_error l (Z.to_nat i) = None) as ->; [|reflexivity]. apply nth_error_None. unfold len in *. lia.
Qed.
Lemma vset_out {A} (l : list A) i x : i < 0 \/ len l <= i -> vset l i x = Undefined OutOfBounds.
Proof. intros H. unfold vset. destruct (Z.leb_spec 0 i); [|reflexivity]. destruct (Z.ltb_spec i (len l)); [lia|reflexivity]. Qed.
Lemma runs_vresize {A} (l : list A) n x : 0 <= n -> runs (vresize l n x) (fun l' => len l' = n /\ (n <= len l -> l' = firstn (Z.to_nat n) l)).
Proof.
  intros H. unfold vresize. destruct (Z.ltb_spec n 0); [lia|]. apply runs_ok. split.
  - rewrite len_app, len_firstn, len_repeat. pose proof (len_nonneg l). lia.
  - intros Hl. replace (n - len l) with (- (len l - n)) by lia. replace (Z.to_nat (- (len l - n))) with 0%nat by lia. cbn [repeat]. apply app_nil_r.
Qed.

Section Remove.
  Context {T : Type} `{Num T}.
  Hypothesis total : total_division T.
  Lemma runs_v4div (a : vec4 T) w : runs (v4div a w) (fun _ => True).
  Proof. unfold v4div. repeat (rb ltac:(apply total); intros ? _). apply runs_ok. exact I. Qed.
  Lemma runs_mapM_FromHomo (l : list (vec4 T)) : runs (mapM FromHomo l) (fun l' => len l' = len l).
  Proof.
    induction l as [|h l IH]; [apply runs_ok; reflexivity|]. cbn [mapM]. rb ltac:(apply runs_FromHomo; exact total). intros a _. rb ltac:(exact IH). intros l' L. apply runs_ok. cbv beta in L. rewrite !len_cons, L. reflexivity.
  Qed.
  Lemma runs_CalcTOL (pts : list (vec4 T)) e : runs (CalcTOL pts e) (fun _ => True).
  Proof. unfold CalcTOL. destruct (fold_left _ pts _) as [a b]. apply total. Qed.

  Variables (knots : list T) (p n r s : Z) (u : T).
  Hypothesis P0 : 0 <= p.
  Hypothesis LK : len knots = n + p + 2.
  Hypothesis R1 : p <= r <= n.
  Hypothesis S0 : 0 <= s <= p + 2.
  (** attempt [t] stays inside *)
  Definition room_at (t : Z) : Prop := 0 <= t /\ p + t + 1 <= r /\ r - s + t + 1 <= n /\ 2 * (t + 1) <= p + s.

  Section Attempt.
    Variables (t f l : Z).
    Hypothesis T0 : 0 <= t.
    Hypothesis F1 : 1 <= f.
    Hypothesis L0 : -1 <= l.
    Hypothesis L1 : l + 1 <= n.
    Hypothesis FL : 0 <= l - f + 2 <= 2 * p.
    Definition swept (st : Z * Z * Z * Z * list (option (vec4 T))) : Prop :=
      let '(i, j, ii, jj, temp) := st in f <= i /\ i + j = f + l /\ ii = i - f + 1 /\ jj = j - f + 1 /\ len temp = 2 * p + 1 /\
        (forall k, 0 <= k <= ii - 1 -> written temp k) /\ (forall k, jj + 1 <= k <= l - f + 2 -> written temp k).
    Lemma runs_sweep pts temp : len pts = n + 1 -> swept (f, l, 1, l - (f - 1), temp) ->
      runs (removal_sweep knots pts (p + 1) u t (f, l, 1, l - (f - 1), temp)) (fun st => swept st /\ (let '(i, j, _, _, _) := st in j - i <= t)).
    Proof.
      intros Lp Sw. unfold removal_sweep.
      apply (runs_weak _ (fun st => swept st /\ (let '(i, j, _, _, _) := st in j - i >? t) = false)).
      { intros [[[[i j] ii] jj] tm] [A B]. split; [exact A|]. destruct (Z.gtb_spec (j - i) t); [discriminate|lia]. }
      apply (runs_while swept (fun st => let '(i, j, _, _, _) := st in j - i + 1) (fun st => let '(i, j, _, _, _) := st in j - i >? t)); [exact Sw|lia| | |].
      - intros [[[[i j] ii] jj] tm]. reflexivity.
      - intros [[[[i j] ii] jj] tm] _ E. destruct (Z.gtb_spec (j - i) t); [lia|discriminate].
      - intros [[[[i j] ii] jj] tm] [A1 [A2 [-> [-> [A5 [A6 A7]]]]]] E. destruct (Z.gtb_spec (j - i) t) as [Hji|]; [|discriminate].
        rget. rget. rb ltac:(apply total); intros ? _. rget. rget. rb ltac:(apply total); intros ? _. rget.
        rb ltac:(apply runs_ugets; apply A6; lia); intros ? _. rb ltac:(apply runs_v4div); intros ? _.
        rb ltac:(apply runs_usets; lia). intros tm1 [B1 [B2 B3]]. cbv beta in *. rget.
        rb ltac:(apply runs_ugets; apply B3; apply A7; lia); intros ? _. rb ltac:(apply runs_v4div); intros ? _.
        rb ltac:(apply runs_usets; lia). intros tm2 [C1 [C2 C3]]. cbv beta in *. apply runs_ok. split; [|lia].
        unfold swept. split; [lia|]. split; [lia|]. split; [lia|]. split; [lia|]. split; [lia|]. split; intros k Hk.
        + destruct (Z.eq_dec k (i - f + 1)) as [->|]; [apply C3; exact B2|]. apply C3, B3, A6. lia.
        + destruct (Z.eq_dec k (j - f + 1)) as [->|]; [exact C2|]. apply C3, B3, A7. lia.
    Qed.
    Lemma runs_copy (temp : list (option (vec4 T))) pts ie je : len pts = n + 1 -> f <= ie -> ie + je = f + l -> je - ie <= t ->
      (forall k, 0 <= k <= ie - f -> written temp k) -> (forall k, je - f + 2 <= k <= l - f + 2 -> written temp k) ->
      runs (removal_copy temp (f - 1) t (f, l, pts)) (fun st => len (snd st) = n + 1).
    Proof.
      intros Lp He Hs Hj Wl Wr. unfold removal_copy.
      apply (runs_weak _ (fun st : Z * Z * list (vec4 T) => (let '(i, j, q) := st in f <= i /\ i + j = f + l /\ len q = n + 1) /\ (let '(i, j, _) := st in j - i >? t) = false)).
      { intros [[i j] q] [A _]. cbn [snd]. apply A. }
      apply (runs_while (fun st : Z * Z * list (vec4 T) => let '(i, j, q) := st in f <= i /\ i + j = f + l /\ len q = n + 1) (fun st => let '(i, j, _) := st in j - i + 1) (fun st => let '(i, j, _) := st in j - i >? t)); [lia|lia| | |].
      - intros [[i j] q]. reflexivity.
      - intros [[i j] q] _ E. destruct (Z.gtb_spec (j - i) t); [lia|discriminate].
      - intros [[i j] q] [A1 [A2 A3]] E. destruct (Z.gtb_spec (j - i) t) as [Hji|]; [|discriminate].
        rb ltac:(apply runs_ugets; apply Wl; lia); intros ? _. rb ltac:(apply runs_vset; lia). intros q1 Q1. cbv beta in Q1.
        rb ltac:(apply runs_ugets; apply Wr; lia); intros ? _. rb ltac:(apply runs_vset; lia). intros q2 Q2. cbv beta in Q2. apply runs_ok. lia.
    Qed.
  End Attempt.

  Lemma runs_removal_loop tol N : forall t pts temp, 0 <= t -> (forall k, t <= k < t + Z.of_nat N -> room_at k) -> len pts = n + 1 -> len temp = 2 * p + 1 ->
    runs (removal_loop N knots (p + 1) u tol t (r - p - t) (r - s + t) pts temp) (fun '(t', pts') => t <= t' <= t + Z.of_nat N /\ len pts' = n + 1).
  Proof.
    induction N as [|N IH]; intros t pts temp T0 Rm Lp Lt; cbn [removal_loop].
    - apply runs_ok. lia.
    - pose proof (Rm t ltac:(lia)) as [_ [R2 [R3 R4]]]. cbv zeta. set (f := r - p - t). set (l := r - s + t).
      rget. rb ltac:(apply runs_usets; lia). intros t1 [A1 [A2 A3]]. cbv beta in *. rget.
      rb ltac:(apply runs_usets; unfold f, l; lia). intros t2 [B1 [B2 B3]]. cbv beta in *.
      rb ltac:(apply (runs_sweep t f l); unfold f, l; try lia).
      { unfold swept. split; [lia|]. split; [lia|]. split; [lia|]. split; [lia|]. split; [lia|]. split; intros k Hk.
        - replace k with 0 by lia. apply B3. exact A2.
        - replace k with (l + 1 - (f - 1)) by (unfold f, l; lia). exact B2. }
      intros [[[[i j] ii] jj] tm] [[S1 [S2 [-> [-> [S5 [S6 S7]]]]]] Sj]. cbv beta iota in *.
      eapply runs_bind with (Q := fun _ => True).
      { destruct (Z.ltb_spec (j - i) t).
        - rb ltac:(apply runs_ugets; apply S6; lia); intros ? _. rb ltac:(apply runs_ugets; apply S7; unfold f, l in *; lia); intros ? _. apply runs_ok. exact I.
        - rb ltac:(apply runs_vget; unfold f, l in *; lia); intros ? _. rb ltac:(apply runs_vget; unfold f, l in *; lia); intros ? _. rb ltac:(apply total); intros ? _.
          rb ltac:(apply runs_ugets; apply S7; unfold f, l in *; lia); intros ? _. rb ltac:(apply runs_ugets; apply S6; lia); intros ? _. rb ltac:(apply runs_vget; unfold f, l in *; lia); intros ? _. apply runs_ok. exact I. }
      intros dist _. destruct (ngtb dist tol); [apply runs_ok; lia|].
      rb ltac:(apply (runs_copy t f l) with (ie := i) (je := j)); try (unfold f, l in *; lia).
      { intros k Hk. apply S6. lia. }
      { intros k Hk. apply S7. lia. }
      intros [[i' j'] q]. cbn [snd]. intros Lq. replace (f - 1) with (r - p - (t + 1)) by (unfold f; lia). replace (l + 1) with (r - s + (t + 1)) by (unfold l; lia).
      eapply runs_weak; [|apply (IH (t + 1) q tm); try assumption; [lia|intros; apply Rm; lia]]. intros [t' q'] [C1 C2]. split; [lia|exact C2].
  Qed.
  (** KnotRemoval.cpp:100-106 counts the attempts to both sides *)
  Lemma sides t J : 1 <= t -> runs (for_up 1 t (fun k '(i, j) => Ok (i + (if Z.rem k 2 =? 1 then 1 else 0), j - (if Z.rem k 2 =? 1 then 0 else 1))) (J, J))
    (fun '(i, j) => i = J + t / 2 /\ j = J - (t - 1) / 2).
  Proof.
    intros Ht.
    match goal with |- runs (for_up _ _ ?b _) _ => destruct (for_up_inv (fun k '(i, j) => i = J + k / 2 /\ j = J - (k - 1) / 2) 1 t b (J, J) Ht) as [[i j] [E Q]] end.
    - split; [change (1 / 2) with 0|change ((1 - 1) / 2) with 0]; lia.
    - intros k [i j] Hk [-> ->]. eexists. split; [reflexivity|]. cbv beta iota. rewrite Z.rem_mod_nonneg by lia.
      destruct (Z.eqb_spec (k mod 2) 1); split; Z.to_euclidean_division_equations; lia.
    - exists (i, j). auto.
  Qed.
  (** the knots that remain *)
  Definition cut (times : Z) : list T := firstn (Z.to_nat (r + 1 - times)) knots ++ skipn (Z.to_nat (r + 1)) knots.
  Lemma knots_cut times : 1 <= times <= r -> forall fill,
    exists k', for_up (r + 1) (n + p + 1 + 1) (fun k knots => x <- vget knots k ;; vset knots (k - times) x) knots = Ok k' /\ vresize k' (len k' - times) fill = Ok (cut times).
  Proof.
    intros HT fill.
    match goal with |- exists _, for_up _ _ ?b _ = _ /\ _ =>
      destruct (for_up_inv (fun k (l : list T) => len l = len knots /\ (forall q, 0 <= q < k - times -> vget l q = vget (cut times) q) /\
         (forall q, k <= q -> vget l q = vget knots q)) (r + 1) (n + p + 1 + 1) b knots) as [k' [E [Q1 [Q2 Q3]]]] end; try lia.
    - split; [reflexivity|]. split; [|reflexivity]. intros q Hq. unfold cut. rewrite vget_app1 by (rewrite len_firstn; lia).
      rewrite vget_firstn by lia. reflexivity.
    - intros k l Hk [Q1 [Q2 Q3]]. destruct (vget_ex knots k ltac:(lia)) as [x Ex]. rewrite Q3 by lia. rewrite Ex. cbn [bind].
      destruct (vset_spec l (k - times) x) as [l' [Es [Ls [G1 G2]]]]; [lia|]. exists l'. split; [exact Es|]. split; [lia|]. split; intros q Hq.
      + destruct (Z.eq_dec q (k - times)) as [->|]; [|rewrite G2 by lia; apply Q2; lia]. rewrite G1, <- Ex. unfold cut.
        rewrite vget_app2 by (rewrite len_firstn; lia). rewrite len_firstn, vget_skipn by lia. f_equal. lia.
      + rewrite G2 by lia. apply Q3. lia.
    - exists k'. split; [exact E|]. unfold vresize. destruct (Z.ltb_spec (len k' - times) 0); [lia|]. f_equal.
      replace (Z.to_nat (len k' - times - len k')) with 0%nat by lia. cbn [repeat]. rewrite app_nil_r.
      assert (len (cut times) = len knots - times) as Lc by (unfold cut; rewrite len_app, len_firstn, len_skipn; lia).
      apply vget_ext; [rewrite len_firstn; lia|]. intros i Hi. rewrite len_firstn in Hi. rewrite vget_firstn by lia. apply Q2. lia.
  Qed.
  Lemma runs_KnotRemoval times tol pts : len pts = n + 1 -> 1 <= times -> KnotVector_GetMultiplicity knots u = s -> KnotVector_FindSpanIndex knots p u = Ok r ->
    p + times <= r -> r - s + times <= n -> 2 * times <= p + s ->
    runs (KnotRemoval knots pts p u times tol) (fun '(t, k', q') => 0 <= t <= times /\ (t <> 0 -> k' = cut times)).
  Proof.
    intros Lp T1 Es Er C1 C2 C3. unfold KnotRemoval. cbv zeta. rewrite Es, Er. cbn [bind]. rb ltac:(apply runs_CalcTOL). intros tl _.
    rewrite uninit_ok by lia. cbn [bind].
    pose proof (runs_removal_loop tl (Z.to_nat times) 0 (map ToHomo pts) (repeat None (Z.to_nat (2 * p + 1)))) as RL.
    replace (r - p - 0) with (r - p) in RL by lia. replace (r - s + 0) with (r - s) in RL by lia.
    rb ltac:(apply RL). 1: lia. 1: intros k Hk; unfold room_at; lia. 1: rewrite len_map; exact Lp. 1: rewrite len_repeat; lia.
    intros [t q] [Ht Lq]. cbv beta in *. destruct (Z.eqb_spec t 0) as [->|Nt]; [apply runs_ok; split; [lia|congruence]|].
    rewrite len_map, Lp. replace (n + 1 - 1) with n by lia. set (J := Z.quot (2 * r - s - p) 2).
    rb ltac:(apply sides; lia). intros [i j] [-> ->]. cbv beta iota. assert (0 <= J - (t - 1) / 2) as J1 by (unfold J; Z.to_euclidean_division_equations; lia).
    rb ltac:(apply (runs_for_at (fun k '(ps, j') => len ps = n + 1 /\ j' = J - (t - 1) / 2 + (k - (J + t / 2 + 1))) (fun '(ps, _) => len ps = n + 1))).
    { split; [exact Lq|lia]. }
    { intros k [ps j'] _ [A _]. exact A. }
    { intros k [ps j'] Hk [Q1 ->]. assert (0 <= (t - 1) / 2 <= t / 2 + 1) by (Z.to_euclidean_division_equations; lia). assert (0 <= t / 2) by (Z.to_euclidean_division_equations; lia).
      rb ltac:(apply runs_vget; lia). intros x _. rb ltac:(apply runs_vset; lia). intros ps1 L1. cbv beta in L1. apply runs_ok. split; lia. }
    intros [ps j'] Lps. cbv beta iota in *. rb ltac:(apply runs_vresize; lia). intros ps2 [L2 _]. cbv beta in *.
    destruct (knots_cut times ltac:(lia) n0) as [k1 [E1 E2]]. rewrite E1. cbn [bind]. rewrite E2. cbn [bind].
    rb ltac:(apply runs_mapM_FromHomo). intros q4 _. apply runs_ok. split; [lia|]. reflexivity.
  Qed.
End Remove.

(** the accesses of the first attempt *)
Lemma KnotRemoval_out {T} `{Num T} (total : total_division T) (knots : list T) p n r s u times tol pts : 0 <= p -> p <= r <= n -> 0 <= s -> len pts = n + 1 -> 1 <= times ->
  KnotVector_GetMultiplicity knots u = s -> KnotVector_FindSpanIndex knots p u = Ok r ->
  ~ (p + 1 <= r /\ r - s + 1 <= n /\ 2 <= p + s /\ s <= p + 2) -> KnotRemoval knots pts p u times tol = Undefined OutOfBounds.
Proof.
  intros P0 R1 S0 Lp T1 Es Er C. unfold KnotRemoval. cbv zeta. rewrite Es, Er. cbn [bind]. destruct (runs_CalcTOL total (map ToHomo pts) tol) as [tl [-> _]]. cbn [bind].
  rewrite uninit_ok by lia. cbn [bind]. replace (Z.to_nat times) with (S (Z.to_nat (times - 1))) by lia. cbn [removal_loop]. cbv zeta.
  assert (len (map ToHomo pts) = n + 1) as Lm by (rewrite len_map; exact Lp). generalize dependent (map ToHomo pts). intros q Lm.
  destruct (Z_le_gt_dec (p + 1) r) as [C1|C1]; [|rewrite (vget_out q) by lia; reflexivity].
  destruct (vget_ex q (r - p - 1) ltac:(lia)) as [a ->]. cbn [bind].
  destruct (runs_usets (repeat None (Z.to_nat (2 * p + 1))) 0 a) as [t1 [-> [L1 _]]]; [rewrite len_repeat; lia|]. rewrite len_repeat in L1. cbn [bind].
  destruct (Z_le_gt_dec (r - s + 1) n) as [C2|C2]; [|rewrite (vget_out q) by lia; reflexivity].
  destruct (Z_le_gt_dec 0 (r - s + 1)) as [C3|C3]; [|rewrite (vget_out q) by lia; reflexivity].
  destruct (vget_ex q (r - s + 1) ltac:(lia)) as [b ->]. cbn [bind].
  unfold usets. rewrite vset_out by lia. reflexivity.
Qed.
