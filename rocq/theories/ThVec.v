(** Read-over-write lemmas for vectors and matrices, in terms of reads only. *)
From Coq Require Import List ZArith Lia Bool.
From Verif Require Import Outcome Num ModelCore ModelBasis ThOutcome.
Import ListNotations.
Open Scope Z_scope.

Lemma vget_range {A} (l : list A) i a : vget l i = Ok a -> 0 <= i < len l.
Proof. intros E. apply (vget_inv a) in E. tauto. Qed.
Lemma vget_ex {A} (l : list A) i : 0 <= i < len l -> exists a, vget l i = Ok a.
Proof.
  intros H. unfold vget. destruct (Z.ltb_spec i 0); [lia|].
  destruct (nth_error l (Z.to_nat i)) eqn:E; [eauto|]. apply nth_error_None in E. unfold len in H. lia.
Qed.
Lemma vset_spec {A} (l : list A) i x : 0 <= i < len l ->
  exists l', vset l i x = Ok l' /\ len l' = len l /\ vget l' i = Ok x /\ forall j, j <> i -> vget l' j = vget l j.
Proof.
  intros H. exists (update (Z.to_nat i) x l). rewrite vset_ok by assumption. rewrite len_update.
  repeat split.
  - rewrite (vget_ok x) by (rewrite len_update; assumption). rewrite znth_update by lia. rewrite Z.eqb_refl. reflexivity.
  - intros j Hj. destruct (Z_lt_le_dec j 0) as [L|L]; [rewrite !vget_oob by lia; reflexivity|].
    destruct (Z_lt_le_dec j (len l)) as [L'|L'].
    + rewrite !(vget_ok x) by (rewrite ?len_update; lia). rewrite znth_update by lia.
      destruct (Z.eqb_spec j i); [contradiction|]. reflexivity.
    + rewrite !vget_oob by (rewrite ?len_update; lia). reflexivity.
Qed.
Lemma vget_repeat {A} (x : A) n i : 0 <= i < n -> vget (repeat x (Z.to_nat n)) i = Ok x.
Proof. intros. rewrite (vget_ok x) by (rewrite len_repeat; lia). rewrite znth_repeat by lia. reflexivity. Qed.
Lemma vmake_spec {A} n (x : A) : 0 <= n ->
  exists l, vmake n x = Ok l /\ len l = n /\ forall i, 0 <= i < n -> vget l i = Ok x.
Proof.
  intros. exists (repeat x (Z.to_nat n)). rewrite vmake_ok by assumption. rewrite len_repeat.
  split; [reflexivity|]. split; [lia|]. intros; apply vget_repeat; lia.
Qed.
Lemma vget_ext {A} (l l' : list A) : len l = len l' -> (forall i, 0 <= i < len l -> vget l i = vget l' i) -> l = l'.
Proof.
  intros L H. destruct l as [|d t].
  - symmetry. apply len_zero_nil. rewrite <- L. reflexivity.
  - apply znth_ext with d; [assumption|]. intros i Hi. specialize (H i Hi).
    rewrite !(vget_ok d) in H by lia. congruence.
Qed.
Lemma vget_map_ok {A B} (f : A -> B) l i a : vget l i = Ok a -> vget (map f l) i = Ok (f a).
Proof.
  intros E. pose proof (vget_range _ _ _ E). rewrite (vget_ok (f a)) by (rewrite len_map; assumption).
  rewrite (znth_map f a) by assumption. apply (vget_inv a) in E. destruct E as [_ <-]. reflexivity.
Qed.
Lemma vget_map_inv {A B} (f : A -> B) l i b : vget (map f l) i = Ok b -> exists a, vget l i = Ok a /\ b = f a.
Proof.
  intros E. pose proof (vget_range _ _ _ E) as R. rewrite len_map in R. destruct (vget_ex l i R) as [a Ea].
  exists a. split; auto. rewrite (vget_map_ok f _ _ _ Ea) in E. congruence.
Qed.
Lemma vget_zrange_map {A} (f : Z -> A) lo hi i : 0 <= i < hi - lo -> vget (map f (zrange lo hi)) i = Ok (f (lo + i)).
Proof.
  intros H. apply vget_map_ok. rewrite (vget_ok 0) by (rewrite len_zrange; lia).
  rewrite znth_zrange by lia. reflexivity.
Qed.
Lemma tabulate_spec {A} lo hi (f : Z -> outcome A) (g : Z -> A) : lo <= hi ->
  (forall i, lo <= i < hi -> f i = Ok (g i)) ->
  exists l, tabulate lo hi f = Ok l /\ len l = hi - lo /\ forall i, 0 <= i < hi - lo -> vget l i = Ok (g (lo + i)).
Proof.
  intros L H. exists (map g (zrange lo hi)). rewrite (tabulate_ok _ _ _ g) by assumption.
  rewrite len_map, len_zrange. split; [reflexivity|]. split; [lia|]. intros; apply vget_zrange_map; lia.
Qed.
(** building a list from its entries *)
Lemma vget_build {A} n (f : Z -> A) : 0 <= n -> exists l, len l = n /\ forall i, 0 <= i < n -> vget l i = Ok (f i).
Proof.
  intros. exists (map f (zrange 0 n)). rewrite len_map, len_zrange. split; [lia|].
  intros. rewrite vget_zrange_map by lia. reflexivity.
Qed.
Lemma vget_app1 {A} (l l' : list A) i : i < len l -> vget (l ++ l') i = vget l i.
Proof.
  intros. destruct (Z_lt_le_dec i 0); [rewrite !vget_oob by lia; reflexivity|].
  unfold vget. destruct (Z.ltb_spec i 0); [lia|]. rewrite nth_error_app1 by (unfold len in *; lia). reflexivity.
Qed.
Lemma vget_app2 {A} (l l' : list A) i : len l <= i -> vget (l ++ l') i = vget l' (i - len l).
Proof.
  intros. pose proof (len_nonneg l). unfold vget. destruct (Z.ltb_spec i 0); [lia|]. destruct (Z.ltb_spec (i - len l) 0); [lia|].
  rewrite nth_error_app2 by (unfold len in *; lia). replace (Z.to_nat i - length l)%nat with (Z.to_nat (i - len l)) by (unfold len in *; lia).
  reflexivity.
Qed.
Lemma vget_firstn {A} (l : list A) n i : i < n -> vget (firstn (Z.to_nat n) l) i = vget l i.
Proof.
  intros. destruct (Z_lt_le_dec i 0); [rewrite !vget_oob by lia; reflexivity|].
  unfold vget. destruct (Z.ltb_spec i 0); [lia|].
  assert (nth_error (firstn (Z.to_nat n) l) (Z.to_nat i) = nth_error l (Z.to_nat i)) as ->; [|reflexivity].
  assert (Z.to_nat i < Z.to_nat n)%nat as Hn by lia. revert Hn. generalize (Z.to_nat i) as a. generalize (Z.to_nat n) as b.
  clear. intros b a. revert b l. induction a as [|a IH]; intros [|b] [|x l] Hn; simpl; try lia; auto. apply IH. lia.
Qed.
Lemma vget_skipn {A} (l : list A) n i : 0 <= n -> 0 <= i -> vget (skipn (Z.to_nat n) l) i = vget l (n + i).
Proof.
  intros. unfold vget. destruct (Z.ltb_spec i 0); [lia|]. destruct (Z.ltb_spec (n + i) 0); [lia|].
  assert (nth_error (skipn (Z.to_nat n) l) (Z.to_nat i) = nth_error l (Z.to_nat (n + i))) as ->; [|reflexivity].
  replace (Z.to_nat (n + i)) with (Z.to_nat n + Z.to_nat i)%nat by lia. generalize (Z.to_nat n) as a. clear.
  intros a. revert l. induction a as [|a IH]; intros [|x l]; simpl; auto. destruct (Z.to_nat i); reflexivity.
Qed.
Lemma vinsert_spec {A} (l : list A) pos x : 0 <= pos <= len l ->
  exists l', vinsert l pos 1 x = Ok l' /\ len l' = len l + 1 /\
    (forall i, i < pos -> vget l' i = vget l i) /\ vget l' pos = Ok x /\ (forall i, pos < i -> vget l' i = vget l (i - 1)).
Proof.
  intros H. eexists. rewrite vinsert_ok by lia. split; [reflexivity|]. split; [apply len_inserted; lia|].
  assert (len (firstn (Z.to_nat pos) l) = pos) as L by (rewrite len_firstn; lia).
  split; [|split].
  - intros i Hi. rewrite vget_app1 by lia. apply vget_firstn; assumption.
  - rewrite vget_app2, L, Z.sub_diag by lia. reflexivity.
  - intros i Hi. rewrite vget_app2, L by lia. change (repeat x (Z.to_nat 1)) with [x].
    rewrite vget_app2 by (change (len [x]) with 1; lia). change (len [x]) with 1.
    rewrite vget_skipn by lia. f_equal. lia.
Qed.

(** ** uninitialised vectors *)
Lemma ugets_get {A} (l : list (option A)) i a : vget l i = Ok (Some a) -> ugets l i = Ok a.
Proof. intros E. unfold ugets. rewrite E. reflexivity. Qed.
Lemma uset_spec {A} (l : list (option A)) i x : 0 <= i < len l ->
  exists l', usets l i x = Ok l' /\ len l' = len l /\ vget l' i = Ok (Some x) /\ forall j, j <> i -> vget l' j = vget l j.
Proof. intros. unfold usets. apply vset_spec; assumption. Qed.
Lemma uninit_spec A n : 0 <= n -> exists l, uninit A n = Ok l /\ len l = n /\ forall i, 0 <= i < n -> vget l i = Ok None.
Proof.
  intros. exists (repeat None (Z.to_nat n)). rewrite uninit_ok by assumption. rewrite len_repeat.
  split; [reflexivity|]. split; [lia|]. intros; apply vget_repeat; lia.
Qed.
Lemma freeze_spec {A} (l : list (option A)) (f : Z -> A) :
  (forall i, 0 <= i < len l -> vget l i = Ok (Some (f i))) ->
  exists l', freeze l = Ok l' /\ len l' = len l /\ forall i, 0 <= i < len l -> vget l' i = Ok (f i).
Proof.
  intros H. destruct (freeze_ok (f 0) l f) as [l' [E [L G]]].
  - intros i Hi. specialize (H i Hi). apply (vget_inv None) in H. destruct H as [_ H]. congruence.
  - exists l'. split; [exact E|]. split; [exact L|]. intros i Hi. rewrite (vget_ok (f 0)) by lia. rewrite G by lia. reflexivity.
Qed.

(** ** matrices *)
Definition mwf {T} (m : matrix T) (r c : Z) : Prop :=
  mrows m = r /\ mcols m = c /\ 0 <= r /\ 0 <= c /\ len (mdata m) = r * c.
Lemma in_range_true r c i j : in_range r c i j = true <-> 0 <= i < r /\ 0 <= j < c.
Proof. unfold in_range. rewrite !andb_true_iff, !Z.leb_le, !Z.ltb_lt. lia. Qed.
Lemma mset_spec {T} (m : matrix T) r c i j x : mwf m r c -> 0 <= i < r -> 0 <= j < c ->
  exists m', mset m i j x = Ok m' /\ mwf m' r c /\ mget m' i j = Ok x /\
    forall i' j', (i' <> i \/ j' <> j) -> mget m' i' j' = mget m i' j'.
Proof.
  intros [Hr [Hc [Pr [Pc L]]]] Hi Hj. unfold mset.
  assert (in_range (mrows m) (mcols m) i j = true) as IR by (apply in_range_true; lia). rewrite IR.
  assert (0 <= i * mcols m + j < len (mdata m)) as Rg by (rewrite L, Hc; nia).
  destruct (vset_spec (mdata m) _ x Rg) as [d [E [Ld [G1 G2]]]]. rewrite E. cbn [bind].
  eexists. split; [reflexivity|]. split; [|split].
  - repeat split; simpl; auto; lia.
  - unfold mget. simpl. rewrite IR. exact G1.
  - intros i' j' Ne. unfold mget. simpl. destruct (in_range (mrows m) (mcols m) i' j') eqn:E'; [|reflexivity].
    apply in_range_true in E'. apply G2. rewrite Hc, Hr in *. intros Eq.
    assert (i' = i) by (destruct (Z.lt_trichotomy i' i) as [?|[?|?]]; nia). subst i'. lia.
Qed.
Lemma mzero_spec {T} `{Num T} r c : 0 <= r -> 0 <= c -> exists m : matrix T, mzero r c = Ok m /\ mwf m r c /\
  forall i j, 0 <= i < r -> 0 <= j < c -> mget m i j = Ok n0.
Proof.
  intros Hr Hc. unfold mzero. destruct (Z.ltb_spec r 0); [lia|]. destruct (Z.ltb_spec c 0); [lia|]. cbn [orb].
  eexists. split; [reflexivity|]. split.
  - repeat split; simpl; auto. rewrite len_repeat. nia.
  - intros i j Hi Hj. unfold mget. simpl. assert (in_range r c i j = true) as -> by (apply in_range_true; lia).
    apply vget_repeat. nia.
Qed.
