(** Grids. *)
From Coq Require Import ZArith Lia Bool List.
From Verif Require Import Outcome Num ModelCore SpecCore ThOutcome.
Import ListNotations.
Open Scope Z_scope.

(** ** partial reads *)
Definition ze {A} (l : list A) (i : Z) : option A := nth_error l (Z.to_nat i).
Lemma vget_ze {A} (l : list A) i a : 0 <= i -> ze l i = Some a -> vget l i = Ok a.
Proof.
  unfold ze, vget. intros Hi E. destruct (Z.ltb_spec i 0); [lia|]. rewrite E. reflexivity.
Qed.
Lemma ze_lt {A} (l : list A) i a : 0 <= i -> ze l i = Some a -> i < len l.
Proof.
  unfold ze, len. intros Hi E. assert (nth_error l (Z.to_nat i) <> None) as N by congruence.
  apply nth_error_Some in N. lia.
Qed.
Lemma ze_ex {A} (l : list A) i : 0 <= i < len l -> exists a, ze l i = Some a.
Proof.
  unfold ze, len. intros Hi. destruct (nth_error l (Z.to_nat i)) eqn:E; [eauto|].
  apply nth_error_None in E. lia.
Qed.
Lemma ze_update {A} (l : list A) i j x : 0 <= i < len l -> 0 <= j ->
  ze (update (Z.to_nat i) x l) j = if j =? i then Some x else ze l j.
Proof.
  unfold ze, len. intros Hi Hj.
  assert (forall n m, (n < length l)%nat ->
    nth_error (update n x l) m = if Nat.eqb m n then Some x else nth_error l m) as G.
  { clear. induction l as [|a l IH]; intros [|n] [|m] H; simpl in *; try lia; auto. apply IH. lia. }
  rewrite G by lia. destruct (Nat.eqb_spec (Z.to_nat j) (Z.to_nat i)), (Z.eqb_spec j i); auto; lia.
Qed.
Lemma ze_app {A} (l l' : list A) i : 0 <= i ->
  ze (l ++ l') i = if i <? len l then ze l i else ze l' (i - len l).
Proof.
  unfold ze, len. intros Hi. destruct (Z.ltb_spec i (Z.of_nat (length l))).
  - apply nth_error_app1. lia.
  - rewrite nth_error_app2 by lia. f_equal. lia.
Qed.
Lemma ze_repeat {A} (x : A) n i : 0 <= i < n -> ze (repeat x (Z.to_nat n)) i = Some x.
Proof.
  intros. unfold ze. rewrite nth_error_repeat by lia. reflexivity.
Qed.
Lemma ze_firstn {A} (l : list A) n i : 0 <= i < n -> ze (firstn (Z.to_nat n) l) i = ze l i.
Proof.
  intros. unfold ze. assert (Z.to_nat i < Z.to_nat n)%nat as L by lia. clear -L.
  revert L. generalize (Z.to_nat i). generalize (Z.to_nat n). intros k; revert l.
  induction k; intros [|a l] [|m] L; simpl; try lia; auto. apply IHk; lia.
Qed.
Lemma ze_skipn {A} (l : list A) n i : 0 <= i -> 0 <= n ->
  ze (skipn (Z.to_nat n) l) i = ze l (n + i).
Proof.
  intros. unfold ze. replace (Z.to_nat (n + i)) with (Z.to_nat n + Z.to_nat i)%nat by lia.
  generalize (Z.to_nat i). generalize (Z.to_nat n). intros k; revert l.
  induction k; intros [|a l] m; simpl; auto. destruct m; reflexivity.
Qed.
Lemma ze_ext {A} (l l' : list A) :
  len l = len l' -> (forall i, 0 <= i < len l -> ze l i = ze l' i) -> l = l'.
Proof.
  unfold len, ze. revert l'. induction l as [|a l IH]; intros [|b l'] E H; simpl in *; try lia; auto.
  assert (Some a = Some b) as Ea by (apply (H 0); lia). inversion Ea; subst. f_equal.
  apply IH; [lia|]. intros i Hi. specialize (H (i + 1)).
  replace (Z.to_nat (i + 1)) with (S (Z.to_nat i)) in H by lia. simpl in H. apply H. lia.
Qed.
Lemma ze_map_zrange {A} (f : Z -> A) n i : 0 <= i < n -> ze (map f (zrange 0 n)) i = Some (f i).
Proof.
  intros. unfold ze, zrange. rewrite map_map. 
  rewrite nth_error_map. rewrite nth_error_nth' with (d := O) by (rewrite seq_length; lia).
  rewrite seq_nth by lia. simpl. do 2 f_equal. lia.
Qed.
Lemma vget_map_zrange {A} (f : Z -> A) n i : 0 <= i < n -> vget (map f (zrange 0 n)) i = Ok (f i).
Proof. intros. apply vget_ze; [lia|]. apply ze_map_zrange; lia. Qed.
Lemma len_map_zrange {A} (f : Z -> A) n : 0 <= n -> len (map f (zrange 0 n)) = n.
Proof. intros. rewrite len_map, len_zrange. lia. Qed.

(** ** index arithmetic *)
Lemma idx_lt r r' c w : r < r' -> 0 <= c < w -> r * w + c < r' * w.
Proof. intros. nia. Qed.
Lemma idx_range r c v w : 0 <= r < v -> 0 <= c < w -> 0 <= r * w + c < v * w.
Proof. intros. nia. Qed.
Lemma idx_inj r c r' c' w : 0 <= c < w -> 0 <= c' < w -> r * w + c = r' * w + c' -> r = r' /\ c = c'.
Proof. intros. assert (r = r') by nia. subst. lia. Qed.
Lemma idx_ex w v i : 0 <= w -> 0 <= i < v * w -> exists r c, 0 <= r < v /\ 0 <= c < w /\ i = r * w + c.
Proof.
  intros. assert (0 < w) by (destruct (Z.eq_dec w 0); [subst; lia|lia]).
  exists (i / w), (i mod w).
  pose proof (Z.div_mod i w ltac:(lia)). pose proof (Z.mod_pos_bound i w ltac:(lia)).
  repeat split; try lia; try nia.
Qed.

Section G.
  Context {A : Type}.
  Implicit Types (g : grid A) (f : Z -> Z -> A).

  Lemma grid_is_ze g u v f : grid_is g u v f -> forall i j, 0 <= i < u -> 0 <= j < v ->
    ze (Values g) (j * u + i) = Some (f i j).
  Proof. intros [_ [_ [_ [_ [_ H]]]]]. exact H. Qed.

  Lemma grid_is_ex (d : A) u v l : 0 <= u -> 0 <= v -> len l = u * v ->
    grid_is (Grid u v l) u v (fun i j => znth d l (j * u + i)).
  Proof.
    intros Hu Hv L. unfold grid_is. simpl. repeat split; auto.
    intros i j Hi Hj. pose proof (idx_range j i v u Hj Hi). unfold znth.
    apply nth_error_nth'. unfold len in L. lia.
  Qed.
  Lemma grid_is_unique g g' u v f : grid_is g u v f -> grid_is g' u v f -> g = g'.
  Proof.
    intros G G'. pose proof (grid_is_ze _ _ _ _ G) as Z1. pose proof (grid_is_ze _ _ _ _ G') as Z2.
    destruct G as [Gu [Gv [Hu [Hv [L _]]]]]. destruct G' as [Gu' [Gv' [_ [_ [L' _]]]]].
    destruct g as [gu gv vals], g' as [gu' gv' vals']. simpl in *. subst. f_equal.
    apply ze_ext; [lia|]. intros i Hi. rewrite L, Z.mul_comm in Hi.
    destruct (idx_ex _ _ _ Hu Hi) as [r [c [Hr [Hc ->]]]]. rewrite Z1, Z2 by lia. reflexivity.
  Qed.
  Lemma grid_is_eq g u v f f' : grid_is g u v f ->
    (forall i j, 0 <= i < u -> 0 <= j < v -> f i j = f' i j) -> grid_is g u v f'.
  Proof.
    intros [Gu [Gv [Hu [Hv [L G]]]]] E. repeat split; auto. intros. rewrite G by lia. rewrite E by lia. reflexivity.
  Qed.

  Lemma Grid_make_ok u v (x : A) : 0 <= u -> 0 <= v -> u * v <= INT_MAX ->
    exists g, Grid_make u v x = Ok g /\ grid_is g u v (fun _ _ => x).
  Proof.
    intros Hu Hv L. unfold Grid_make, int_, fits_int.
    destruct (Z.leb_spec INT_MIN (u * v)); [|unfold INT_MIN in *; nia].
    destruct (Z.leb_spec (u * v) INT_MAX); [|lia]. simpl.
    rewrite vmake_ok by nia. simpl. eexists; split; [reflexivity|].
    unfold grid_is; simpl. repeat split; auto; [rewrite len_repeat; nia|].
    intros i j Hi Hj. apply ze_repeat. pose proof (idx_range j i v u Hj Hi). lia.
  Qed.

  Lemma Grid_Get_ok g u v f i j : grid_is g u v f -> 0 <= i < u -> 0 <= j < v ->
    Grid_Get g i j = Ok (f i j).
  Proof.
    intros G Hi Hj. pose proof (grid_is_ze _ _ _ _ G i j Hi Hj) as Z1. destruct G as [Gu [Gv _]].
    unfold Grid_Get. rewrite Gu, Gv. destruct (Z.ltb_spec i u); [|lia]. destruct (Z.ltb_spec j v); [|lia].
    simpl. apply vget_ze; [nia|assumption].
  Qed.
  Lemma Grid_Get_assert g u v f i j : grid_is g u v f -> u <= i \/ v <= j -> Grid_Get g i j = AssertFail.
  Proof.
    intros [Gu [Gv _]] H. unfold Grid_Get. rewrite Gu, Gv.
    destruct (Z.ltb_spec i u), (Z.ltb_spec j v); try lia; reflexivity.
  Qed.
  Lemma Grid_Set_ok g u v f i j x : grid_is g u v f -> 0 <= i < u -> 0 <= j < v ->
    exists g', Grid_Set g i j x = Ok g' /\
      grid_is g' u v (fun i' j' => if (i' =? i) && (j' =? j) then x else f i' j').
  Proof.
    intros G Hi Hj. pose proof (grid_is_ze _ _ _ _ G) as Z1. destruct G as [Gu [Gv [Hu [Hv [L _]]]]].
    unfold Grid_Set. rewrite Gu, Gv. destruct (Z.ltb_spec i u); [|lia]. destruct (Z.ltb_spec j v); [|lia].
    pose proof (idx_range j i v u Hj Hi).
    simpl. rewrite vset_ok by lia. simpl. eexists; split; [reflexivity|].
    unfold grid_is; simpl. repeat split; auto; [rewrite len_update; auto|].
    intros i' j' Hi' Hj'. pose proof (idx_range j' i' v u Hj' Hi').
    change (ze (update (Z.to_nat (j * u + i)) x (Values g)) (j' * u + i')
      = Some (if (i' =? i) && (j' =? j) then x else f i' j')).
    rewrite ze_update by lia.
    destruct (Z.eqb_spec (j' * u + i') (j * u + i)) as [E|E].
    - apply idx_inj in E; [|lia|lia]. destruct E as [-> ->]. rewrite !Z.eqb_refl. reflexivity.
    - destruct (Z.eqb_spec i' i), (Z.eqb_spec j' j); simpl; try (apply Z1; lia). subst. lia.
  Qed.
  Lemma Grid_Set_assert g u v f i j x : grid_is g u v f -> u <= i \/ v <= j -> Grid_Set g i j x = AssertFail.
  Proof.
    intros [Gu [Gv _]] H. unfold Grid_Set. rewrite Gu, Gv.
    destruct (Z.ltb_spec i u), (Z.ltb_spec j v); try lia; reflexivity.
  Qed.

  Lemma Grid_GetU_ok g u v f i : grid_is g u v f -> 0 <= i < u ->
    Grid_GetU g i = Ok (map (f i) (zrange 0 v)).
  Proof.
    intros G Hi. pose proof (grid_is_ze _ _ _ _ G) as Z1. destruct G as [Gu [Gv [Hu [Hv _]]]].
    unfold Grid_GetU. rewrite Gu, Gv. destruct (Z.ltb_spec i u); [|lia]. simpl.
    destruct (Z.ltb_spec v 0); [lia|]. simpl. apply tabulate_ok. intros j Hj.
    apply vget_ze; [nia|]. apply Z1; lia.
  Qed.
  Lemma Grid_GetV_ok g u v f j : grid_is g u v f -> 0 <= j < v ->
    Grid_GetV g j = Ok (map (fun i => f i j) (zrange 0 u)).
  Proof.
    intros G Hj. pose proof (grid_is_ze _ _ _ _ G) as Z1. destruct G as [Gu [Gv [Hu [Hv _]]]].
    unfold Grid_GetV. rewrite Gu, Gv. destruct (Z.ltb_spec j v); [|lia]. simpl.
    destruct (Z.ltb_spec u 0); [lia|]. simpl. apply tabulate_ok. intros i Hi.
    apply vget_ze; [nia|]. apply Z1; lia.
  Qed.
  Lemma Grid_GetU_assert g u v f i : grid_is g u v f -> u <= i -> Grid_GetU g i = AssertFail.
  Proof. intros [Gu _] H. unfold Grid_GetU. rewrite Gu. destruct (Z.ltb_spec i u); [lia|reflexivity]. Qed.
  Lemma Grid_GetV_assert g u v f j : grid_is g u v f -> v <= j -> Grid_GetV g j = AssertFail.
  Proof. intros [_ [Gv _]] H. unfold Grid_GetV. rewrite Gv. destruct (Z.ltb_spec j v); [lia|reflexivity]. Qed.


  Lemma Grid_SetU_ok g u v f i w : grid_is g u v f -> 0 <= i < u ->
    exists g', Grid_SetU g i (map w (zrange 0 v)) = Ok g' /\
      grid_is g' u v (fun i' j' => if i' =? i then w j' else f i' j').
  Proof.
    intros G Hi. pose proof (grid_is_ze _ _ _ _ G) as Z1. destruct G as [Gu [Gv [Hu [Hv [L _]]]]].
    unfold Grid_SetU. rewrite Gu, Gv. destruct (Z.ltb_spec i u); [|lia]. simpl.
    rewrite len_map_zrange by lia. rewrite Z.eqb_refl. simpl.
    destruct (for_up_inv (fun k vals => len vals = u * v /\
       forall i' j', 0 <= i' < u -> 0 <= j' < v ->
         ze vals (j' * u + i') = Some (if (i' =? i) && (j' <? k) then w j' else f i' j'))
       0 v (fun k vals => x <- vget (map w (zrange 0 v)) k ;; vset vals (k * u + i) x) (Values g))
      as [vals [E [L' P]]].
    - lia.
    - split; [assumption|]. intros i' j' Hi' Hj'. destruct (Z.ltb_spec j' 0); [lia|].
      rewrite andb_false_r. apply Z1; lia.
    - intros k vals Hk [L' P]. rewrite vget_map_zrange by lia. simpl.
      pose proof (idx_range k i v u Hk Hi). rewrite vset_ok by lia.
      eexists; split; [reflexivity|]. split; [rewrite len_update; auto|].
      intros i' j' Hi' Hj'. pose proof (idx_range j' i' v u Hj' Hi'). rewrite ze_update by lia.
      destruct (Z.eqb_spec (j' * u + i') (k * u + i)) as [E|E].
      + apply idx_inj in E; [|lia|lia]. destruct E as [-> ->]. rewrite Z.eqb_refl.
        destruct (Z.ltb_spec k (k + 1)); [|lia]. reflexivity.
      + rewrite P by lia. destruct (Z.eqb_spec i' i); simpl; auto.
        assert (j' <> k) by (intros ->; subst; lia).
        destruct (Z.ltb_spec j' k), (Z.ltb_spec j' (k + 1)); auto; lia.
    - rewrite E. simpl. eexists; split; [reflexivity|].
      unfold grid_is; simpl. repeat split; auto. intros i' j' Hi' Hj'.
      change (ze vals (j' * u + i') = Some (if i' =? i then w j' else f i' j')).
      rewrite P by lia. destruct (Z.ltb_spec j' v); [|lia]. rewrite andb_true_r. reflexivity.
  Qed.
  Lemma Grid_SetV_ok g u v f j w : grid_is g u v f -> 0 <= j < v ->
    exists g', Grid_SetV g j (map w (zrange 0 u)) = Ok g' /\
      grid_is g' u v (fun i' j' => if j' =? j then w i' else f i' j').
  Proof.
    intros G Hj. pose proof (grid_is_ze _ _ _ _ G) as Z1. destruct G as [Gu [Gv [Hu [Hv [L _]]]]].
    unfold Grid_SetV. rewrite Gu, Gv. destruct (Z.ltb_spec j v); [|lia]. simpl.
    rewrite len_map_zrange by lia. rewrite Z.eqb_refl. simpl.
    destruct (for_up_inv (fun k vals => len vals = u * v /\
       forall i' j', 0 <= i' < u -> 0 <= j' < v ->
         ze vals (j' * u + i') = Some (if (j' =? j) && (i' <? k) then w i' else f i' j'))
       0 u (fun k vals => x <- vget (map w (zrange 0 u)) k ;; vset vals (j * u + k) x) (Values g))
      as [vals [E [L' P]]].
    - lia.
    - split; [assumption|]. intros i' j' Hi' Hj'. destruct (Z.ltb_spec i' 0); [lia|].
      rewrite andb_false_r. apply Z1; lia.
    - intros k vals Hk [L' P]. rewrite vget_map_zrange by lia. simpl.
      pose proof (idx_range j k v u Hj Hk). rewrite vset_ok by lia.
      eexists; split; [reflexivity|]. split; [rewrite len_update; auto|].
      intros i' j' Hi' Hj'. pose proof (idx_range j' i' v u Hj' Hi'). rewrite ze_update by lia.
      destruct (Z.eqb_spec (j' * u + i') (j * u + k)) as [E|E].
      + apply idx_inj in E; [|lia|lia]. destruct E as [-> ->]. rewrite Z.eqb_refl.
        destruct (Z.ltb_spec k (k + 1)); [|lia]. reflexivity.
      + rewrite P by lia. destruct (Z.eqb_spec j' j); simpl; auto.
        assert (i' <> k) by (intros ->; subst; lia).
        destruct (Z.ltb_spec i' k), (Z.ltb_spec i' (k + 1)); auto; lia.
    - rewrite E. simpl. eexists; split; [reflexivity|].
      unfold grid_is; simpl. repeat split; auto. intros i' j' Hi' Hj'.
      change (ze vals (j' * u + i') = Some (if j' =? j then w i' else f i' j')).
      rewrite P by lia. destruct (Z.ltb_spec i' u); [|lia]. rewrite andb_true_r. reflexivity.
  Qed.
  Lemma Grid_SetU_assert g u v f i l : grid_is g u v f -> u <= i \/ len l <> v -> Grid_SetU g i l = AssertFail.
  Proof.
    intros [Gu [Gv _]] H. unfold Grid_SetU. rewrite Gu, Gv.
    destruct (Z.ltb_spec i u); [|reflexivity]. simpl. destruct (Z.eqb_spec (len l) v); [lia|reflexivity].
  Qed.
  Lemma Grid_SetV_assert g u v f j l : grid_is g u v f -> v <= j \/ len l <> u -> Grid_SetV g j l = AssertFail.
  Proof.
    intros [Gu [Gv _]] H. unfold Grid_SetV. rewrite Gu, Gv.
    destruct (Z.ltb_spec j v); [|reflexivity]. simpl. destruct (Z.eqb_spec (len l) u); [lia|reflexivity].
  Qed.

  Lemma Grid_Count_ok g u v f : grid_is g u v f -> u * v <= INT_MAX -> Grid_Count g = Ok (len (Values g)).
  Proof.
    intros [Gu [Gv [Hu [Hv [L _]]]]] F. unfold Grid_Count, int_, fits_int. rewrite Gu, Gv, L.
    destruct (Z.leb_spec INT_MIN (u * v)); [|unfold INT_MIN in *; nia].
    destruct (Z.leb_spec (u * v) INT_MAX); [|lia]. reflexivity.
  Qed.

  Lemma Grid_InsertV_ok g u v f k d : grid_is g u v f -> 0 <= k < v ->
    exists g', Grid_InsertV g k d = Ok g' /\
      grid_is g' u (v + 1) (fun i j => if j <? k then f i j else if j =? k then d else f i (j - 1)).
  Proof.
    intros G Hk. pose proof (grid_is_ze _ _ _ _ G) as Z1. destruct G as [Gu [Gv [Hu [Hv [L _]]]]].
    unfold Grid_InsertV. rewrite Gu, Gv. destruct (Z.leb_spec 0 k); [|lia].
    destruct (Z.ltb_spec k v); [|lia]. simpl.
    rewrite vinsert_ok by nia. simpl. eexists; split; [reflexivity|].
    unfold grid_is; simpl. repeat split; auto; [lia|rewrite len_inserted by nia; nia|].
    intros i j Hi Hj. pose proof (idx_range j i (v + 1) u Hj Hi).
    match goal with |- nth_error ?l _ = ?r => change (ze l (j * u + i) = r) end.
    rewrite ze_app by lia. rewrite len_firstn. replace (Z.min (Z.max (k * u) 0) (len (Values g))) with (k * u) by nia.
    destruct (Z.ltb_spec j k).
    - destruct (Z.ltb_spec (j * u + i) (k * u)); [|nia]. rewrite ze_firstn by lia. apply Z1; lia.
    - destruct (Z.ltb_spec (j * u + i) (k * u)); [nia|].
      rewrite ze_app by lia. rewrite len_repeat.
      destruct (Z.eqb_spec j k).
      + subst j. destruct (Z.ltb_spec (k * u + i - k * u) (Z.max u 0)); [|lia]. apply ze_repeat. lia.
      + destruct (Z.ltb_spec (j * u + i - k * u) (Z.max u 0)); [nia|].
        rewrite ze_skipn by nia. replace (k * u + (j * u + i - k * u - Z.max u 0)) with ((j - 1) * u + i) by lia.
        apply Z1; lia.
  Qed.
  Lemma Grid_InsertV_assert g u v f k d : grid_is g u v f -> k < 0 \/ v <= k -> Grid_InsertV g k d = AssertFail.
  Proof.
    intros [Gu [Gv _]] H. unfold Grid_InsertV. rewrite Gv.
    destruct (Z.leb_spec 0 k), (Z.ltb_spec k v); try lia; reflexivity.
  Qed.
  Lemma Grid_InsertU_assert jk g u v f k d : grid_is g u v f -> k < 0 \/ u <= k ->
    Grid_InsertU jk g k d = AssertFail.
  Proof.
    intros [Gu [Gv _]] H. unfold Grid_InsertU. rewrite Gu.
    destruct (Z.leb_spec 0 k), (Z.ltb_spec k u); try lia; reflexivity.
  Qed.

  (** invariant of the in-place column insertion: cells from [fin] on (except
      [hole]) hold the new content, cells before [orig] still hold the old one *)
  Definition moving u v f k (d : A) fin orig hole (vals : list A) : Prop :=
    len vals = v * (u + 1) /\
    (forall i j, 0 <= i < u + 1 -> 0 <= j < v -> fin <= j * (u + 1) + i -> j * (u + 1) + i <> hole ->
       ze vals (j * (u + 1) + i) = Some (if i <? k then f i j else if i =? k then d else f (i - 1) j)) /\
    (forall i j, 0 <= i < u -> 0 <= j < v -> j * u + i < orig -> ze vals (j * u + i) = Some (f i j)).

  Lemma Grid_InsertU_ok jk g u v f k d : grid_is g u v f -> 0 <= k < u ->
    exists g', Grid_InsertU jk g k d = Ok g' /\
      grid_is g' (u + 1) v (fun i j => if i <? k then f i j else if i =? k then d else f (i - 1) j).
  Proof.
    intros G Hk. pose proof (grid_is_ze _ _ _ _ G) as Z1. destruct G as [Gu [Gv [Hu [Hv [L _]]]]].
    unfold Grid_InsertU. rewrite Gu, Gv. destruct (Z.leb_spec 0 k); [|lia].
    destruct (Z.ltb_spec k u); [|lia]. simpl.
    destruct (Z.ltb_spec ((u + 1) * v) 0); [nia|]. simpl.
    set (new := fun i j => if i <? k then f i j else if i =? k then d else f (i - 1) j).
    pose (move_one := fun (i : Z) '((vals, float_idx) : list A * Z) =>
      x <- vget vals float_idx ;; vals <- vset vals i x ;; Ok (vals, float_idx - 1)).
    assert (forall i vals fl x hole n, n = i -> 
      moving u v f k d (i + 1) (fl + 1) hole vals -> 0 <= fl <= i -> i < v * (u + 1) -> ze vals fl = Some x ->
      i <> hole -> (forall a b, 0 <= a < u + 1 -> 0 <= b < v -> i = b * (u + 1) + a -> new a b = x) ->
      exists vals', move_one i (vals, fl) = Ok (vals', fl - 1) /\
        moving u v f k d i fl hole vals') as Mv.
    { intros i vals fl x hole n _ [ML [MF MO]] Hfl Hi Ex Hh Hnew. unfold move_one.
      rewrite (vget_ze _ _ x) by (auto; lia). simpl. rewrite vset_ok by lia. simpl.
      eexists; split; [reflexivity|]. split; [rewrite len_update; auto|]. split.
      - intros a b Ha Hb Hfin Hnh. pose proof (idx_range b a v (u + 1) Hb Ha). rewrite ze_update by lia.
        destruct (Z.eqb_spec (b * (u + 1) + a) i) as [E|E].
        + f_equal. symmetry. apply Hnew; auto.
        + apply MF; auto. lia.
      - intros a b Ha Hb Ho. pose proof (idx_range b a v u Hb Ha). rewrite ze_update by lia.
        destruct (Z.eqb_spec (b * u + a) i); [lia|]. apply MO; auto. lia. }
    match goal with |- context [for_down (v - 1) 0 ?b ?s] => set (body := b); set (s0 := s) end.
    destruct (for_down_inv (fun r '(vals, fl) => fl = (r + 1) * u - 1 /\
        moving u v f k d ((r + 1) * (u + 1)) ((r + 1) * u) (-1) vals) (v - 1) 0 body s0) as [[vals fl] [E [_ P]]].
    - lia.
    - unfold s0. split; [lia|]. split; [|split].
      + rewrite len_app, len_firstn, len_repeat. nia.
      + intros a b Ha Hb Hge _. pose proof (idx_range b a v (u + 1) Hb Ha). nia.
      + intros a b Ha Hb Hlt. pose proof (idx_range b a v u Hb Ha). rewrite ze_app by lia.
        rewrite len_firstn. destruct (Z.ltb_spec (b * u + a) (Z.min (Z.max ((u + 1) * v) 0) (len (Values g)))); [|nia].
        rewrite ze_firstn by nia. apply Z1; lia.
    - intros r [vals fl] Hr [Hfl M]. unfold body.
      destruct (for_down_inv (fun i '(vals, fl) => fl = r * u + (i - r * (u + 1)) - 1 /\
          moving u v f k d (i + 1) (fl + 1) (r * (u + 1) + k) vals)
          ((r + 1) * (u + 1) - 1) (r * (u + 1) + k + 1) move_one (vals, fl)) as [[vals1 fl1] [E1 [F1 M1]]].
      + nia.
      + split; [nia|]. destruct M as [ML [MF MO]]. split; [auto|split].
        * intros a b Ha Hb Hge _. apply MF; auto; [nia|]. pose proof (idx_range b a v (u + 1) Hb Ha). lia.
        * intros a b Ha Hb Hlt. apply MO; auto. lia.
      + intros i [vs fl'] Hi [Hf Mo]. pose proof Mo as [_ [_ MO]].
        set (c := i - r * (u + 1)) in *. assert (i = r * (u + 1) + c) as Ei by lia.
        assert (0 <= c - 1 < u) by nia.
        destruct (Mv i vs fl' (f (c - 1) r) (r * (u + 1) + k) i eq_refl Mo) as [vs' [Em Mm]].
        * nia.
        * nia.
        * replace fl' with (r * u + (c - 1)) by lia. apply MO; lia.
        * lia.
        * intros a b Ha Hb Eab. rewrite Ei in Eab. apply idx_inj in Eab; [|lia|lia]. destruct Eab as [<- <-].
          unfold new. destruct (Z.ltb_spec c k); [lia|]. destruct (Z.eqb_spec c k); [lia|]. reflexivity.
        * exists (vs', fl' - 1). split; [exact Em|]. split; [lia|].
          replace (i - 1 + 1) with i by lia. replace (fl' - 1 + 1) with fl' by lia. exact Mm.
      + cbv zeta. fold move_one. rewrite E1. cbn [bind].
        destruct (for_down_inv (fun i '(vals, fl) => fl = r * u + (i - r * (u + 1)) /\
          moving u v f k d (i + 1) (fl + 1) (r * (u + 1) + k) vals)
          (r * (u + 1) + k - 1) (r * (u + 1)) move_one (vals1, fl1)) as [[vals2 fl2] [E2 [F2 M2]]].
        * lia.
        * split; [lia|]. destruct M1 as [ML [MF MO]]. split; [auto|split].
          -- intros a b Ha Hb Hge Hne. apply MF; auto; lia.
          -- intros a b Ha Hb Hlt. apply MO; auto; lia.
        * intros i [vs fl'] Hi [Hf Mo]. pose proof Mo as [_ [_ MO]].
          set (c := i - r * (u + 1)) in *. assert (i = r * (u + 1) + c) as Ei by lia.
          assert (0 <= c < k) by lia.
          destruct (Mv i vs fl' (f c r) (r * (u + 1) + k) i eq_refl Mo) as [vs' [Em Mm]].
          -- nia.
          -- nia.
          -- replace fl' with (r * u + c) by lia. apply MO; lia.
          -- lia.
          -- intros a b Ha Hb Eab. rewrite Ei in Eab. apply idx_inj in Eab; [|lia|lia]. destruct Eab as [<- <-].
             unfold new. destruct (Z.ltb_spec c k); [|lia]. reflexivity.
          -- exists (vs', fl' - 1). split; [exact Em|]. split; [lia|].
             replace (i - 1 + 1) with i by lia. replace (fl' - 1 + 1) with fl' by lia. exact Mm.
        * rewrite E2. cbn [bind]. destruct M2 as [ML [MF MO]].
          rewrite vset_ok by nia. simpl. eexists; split; [reflexivity|]. split; [lia|].
          replace (r - 1 + 1) with r by lia. split; [rewrite len_update; auto|]. split.
          -- intros a b Ha Hb Hge _. rewrite ze_update by nia.
             destruct (Z.eqb_spec (b * (u + 1) + a) (r * (u + 1) + k)) as [Eh|Eh].
             ++ apply idx_inj in Eh; [|lia|lia]. destruct Eh as [-> ->].
                destruct (Z.ltb_spec k k); [lia|]. rewrite Z.eqb_refl. reflexivity.
             ++ apply MF; auto; lia.
          -- intros a b Ha Hb Hlt. rewrite ze_update by nia.
             destruct (Z.eqb_spec (b * u + a) (r * (u + 1) + k)); [nia|]. apply MO; auto. lia.
    - rewrite E. cbn [bind]. eexists; split; [reflexivity|]. destruct P as [ML [MF _]].
      unfold grid_is; simpl. repeat split; auto; try lia.
      intros a b Ha Hb. pose proof (idx_range b a v (u + 1) Hb Ha). apply MF; auto; lia.
  Qed.
End G.
