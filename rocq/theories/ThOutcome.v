(** Lemmas about outcomes, vectors and loops. *)
From Coq Require Import List ZArith Lia Bool Permutation.
From Verif Require Import Outcome.
Import ListNotations.
Open Scope Z_scope.

#[global] Arguments Z.add : simpl never.
#[global] Arguments Z.sub : simpl never.
#[global] Arguments Z.mul : simpl never.
#[global] Arguments Z.opp : simpl never.
#[global] Arguments Z.eqb : simpl never.
#[global] Arguments Z.leb : simpl never.
#[global] Arguments Z.ltb : simpl never.

(** ** bind *)
Lemma bind_Ok {A B} (m : outcome A) (f : A -> outcome B) b :
  bind m f = Ok b <-> exists a, m = Ok a /\ f a = Ok b.
Proof.
  destruct m; simpl; split; intros E; try discriminate; eauto;
    destruct E as [a' [E1 E2]]; congruence.
Qed.

Lemma assert_Ok b u : assert_ b = Ok u <-> b = true.
Proof. destruct b, u; simpl; split; congruence. Qed.

Ltac bindinv H :=
  let a := fresh "a" in let H1 := fresh H in
  apply bind_Ok in H; destruct H as [a [H1 H]].

(** ** length *)
Lemma len_nonneg {A} (l : list A) : 0 <= len l.
Proof. unfold len; lia. Qed.
Lemma len_nil {A} : len (@nil A) = 0.
Proof. reflexivity. Qed.
Lemma len_cons {A} (a : A) l : len (a :: l) = len l + 1.
Proof. unfold len; simpl; lia. Qed.
Lemma len_app {A} (l l' : list A) : len (l ++ l') = len l + len l'.
Proof. unfold len; rewrite app_length; lia. Qed.
Lemma len_repeat {A} (a : A) n : len (repeat a (Z.to_nat n)) = Z.max n 0.
Proof. unfold len; rewrite repeat_length; lia. Qed.
Lemma len_map {A B} (f : A -> B) l : len (map f l) = len l.
Proof. unfold len; rewrite map_length; lia. Qed.
Lemma len_rev {A} (l : list A) : len (rev l) = len l.
Proof. unfold len; rewrite rev_length; lia. Qed.
Lemma len_firstn {A} (l : list A) n : len (firstn (Z.to_nat n) l) = Z.min (Z.max n 0) (len l).
Proof. unfold len; rewrite firstn_length; lia. Qed.
Lemma len_skipn {A} (l : list A) n : len (skipn (Z.to_nat n) l) = Z.max 0 (len l - Z.max n 0).
Proof. unfold len; rewrite skipn_length; lia. Qed.
Lemma len_zero_nil {A} (l : list A) : len l = 0 -> l = [].
Proof. destruct l; [reflexivity|rewrite len_cons; pose proof (len_nonneg l); lia]. Qed.

Ltac lens := unfold len in *; cbn [length] in *; lia.

(** ** indexed reading with a default *)
Definition znth {A} (d : A) (l : list A) (i : Z) : A := nth (Z.to_nat i) l d.

Lemma znth_ext {A} (d : A) l l' :
  len l = len l' -> (forall i, 0 <= i < len l -> znth d l i = znth d l' i) -> l = l'.
Proof.
  unfold len, znth; intros E H. apply nth_ext with d d; [lia|].
  intros n Hn. specialize (H (Z.of_nat n)). rewrite Nat2Z.id in H. apply H; lia.
Qed.
Lemma znth_0 {A} (d a : A) l : znth d (a :: l) 0 = a.
Proof. reflexivity. Qed.
Lemma znth_cons {A} (d a : A) l i : 0 < i -> znth d (a :: l) i = znth d l (i - 1).
Proof.
  intros Hi. unfold znth. replace (Z.to_nat i) with (S (Z.to_nat (i - 1))) by lia. reflexivity.
Qed.
Lemma znth_app1 {A} (d : A) l l' i : i < len l -> 0 <= i -> znth d (l ++ l') i = znth d l i.
Proof. intros. unfold znth, len in *. rewrite app_nth1; [reflexivity|lia]. Qed.
Lemma znth_app2 {A} (d : A) l l' i : len l <= i -> znth d (l ++ l') i = znth d l' (i - len l).
Proof.
  intros. unfold znth, len in *. rewrite app_nth2 by lia. f_equal. lia.
Qed.
Lemma znth_app {A} (d : A) l l' i : 0 <= i ->
  znth d (l ++ l') i = if i <? len l then znth d l i else znth d l' (i - len l).
Proof.
  intros. destruct (Z.ltb_spec i (len l)); [apply znth_app1|apply znth_app2]; lia.
Qed.
Lemma znth_repeat {A} (d a : A) n i : 0 <= i < n -> znth d (repeat a (Z.to_nat n)) i = a.
Proof.
  intros. unfold znth. assert (Z.to_nat i < Z.to_nat n)%nat as L by lia.
  clear -L. revert L. generalize (Z.to_nat i); intros m. generalize (Z.to_nat n); intros k; revert m.
  induction k; intros [|m] L; simpl; try lia; auto. apply IHk. lia.
Qed.
Lemma znth_firstn {A} (d : A) l n i : 0 <= i < n -> znth d (firstn (Z.to_nat n) l) i = znth d l i.
Proof.
  intros. unfold znth. assert (Z.to_nat i < Z.to_nat n)%nat as L by lia. clear -L.
  revert L. generalize (Z.to_nat i). generalize (Z.to_nat n). intros k; revert l.
  induction k; intros [|a l] [|m] L; simpl; try lia; auto. apply IHk; lia.
Qed.
Lemma znth_skipn {A} (d : A) l n i : 0 <= i -> 0 <= n ->
  znth d (skipn (Z.to_nat n) l) i = znth d l (n + i).
Proof.
  intros. unfold znth. replace (Z.to_nat (n + i)) with (Z.to_nat n + Z.to_nat i)%nat by lia.
  generalize (Z.to_nat i). generalize (Z.to_nat n). intros k; revert l.
  induction k; intros [|a l] m; simpl; auto. destruct m; reflexivity.
Qed.
Lemma znth_map {A B} (f : A -> B) d d' l i : 0 <= i < len l -> znth d' (map f l) i = f (znth d l i).
Proof.
  intros. unfold znth, len in *. rewrite nth_indep with (d' := f d) by (rewrite map_length; lia).
  apply map_nth.
Qed.
Lemma znth_rev {A} (d : A) l i : 0 <= i < len l -> znth d (rev l) i = znth d l (len l - 1 - i).
Proof.
  intros. unfold znth, len in *. rewrite rev_nth by lia. f_equal. lia.
Qed.
Lemma znth_default {A} (d : A) l i : len l <= i -> znth d l i = d.
Proof. intros. unfold znth, len in *. apply nth_overflow. lia. Qed.
Lemma znth_indep {A} (d d' : A) l i : 0 <= i < len l -> znth d l i = znth d' l i.
Proof. intros. unfold znth, len in *. apply nth_indep. lia. Qed.
Lemma znth_In {A} (d : A) l i : 0 <= i < len l -> In (znth d l i) l.
Proof. intros. unfold znth, len in *. apply nth_In. lia. Qed.
Lemma In_znth {A} (d : A) l a : In a l -> exists i, 0 <= i < len l /\ znth d l i = a.
Proof.
  intros H. destruct (In_nth l a d H) as [n [Hn E]].
  exists (Z.of_nat n). unfold znth, len. rewrite Nat2Z.id. split; [lia|assumption].
Qed.
Lemma znth_last {A} (d : A) l : l <> [] -> znth d l (len l - 1) = last l d.
Proof.
  intros N. destruct (exists_last N) as [l' [a E]]. subst l.
  rewrite last_last, len_app, len_cons, len_nil, znth_app2 by lia.
  replace (len l' + (0 + 1) - 1 - len l') with 0 by lia. reflexivity.
Qed.

(** ** vget / vset *)
Lemma vget_ok {A} (d : A) l i : 0 <= i < len l -> vget l i = Ok (znth d l i).
Proof.
  intros H. unfold vget, znth, len in *.
  destruct (Z.ltb_spec i 0); [lia|].
  rewrite (nth_error_nth' l d) by lia. reflexivity.
Qed.
Lemma vget_oob {A} (l : list A) i : i < 0 \/ len l <= i -> vget l i = Undefined OutOfBounds.
Proof.
  intros H. unfold vget, len in *. destruct (Z.ltb_spec i 0); [reflexivity|].
  replace (nth_error l (Z.to_nat i)) with (@None A); [reflexivity|].
  symmetry. apply nth_error_None. lia.
Qed.
Lemma vget_inv {A} (d : A) l i a : vget l i = Ok a -> 0 <= i < len l /\ a = znth d l i.
Proof.
  intros H. destruct (Z_lt_ge_dec i 0) as [L|G].
  - rewrite vget_oob in H by lia. discriminate.
  - destruct (Z_lt_ge_dec i (len l)).
    + rewrite (vget_ok d) in H by lia. inversion H; subst. split; [lia|reflexivity].
    + rewrite vget_oob in H by lia. discriminate.
Qed.
Lemma len_update {A} n (x : A) l : len (update n x l) = len l.
Proof.
  unfold len. f_equal. revert n; induction l; intros [|n]; simpl; auto.
Qed.
Lemma vset_ok {A} (l : list A) i x : 0 <= i < len l -> vset l i x = Ok (update (Z.to_nat i) x l).
Proof.
  intros. unfold vset. destruct (Z.leb_spec 0 i); [|lia]. destruct (Z.ltb_spec i (len l)); [|lia].
  reflexivity.
Qed.
Lemma vset_oob {A} (l : list A) i x : i < 0 \/ len l <= i -> vset l i x = Undefined OutOfBounds.
Proof.
  intros. unfold vset. destruct (Z.leb_spec 0 i), (Z.ltb_spec i (len l)); simpl; auto; lia.
Qed.
Lemma vset_inv {A} (l : list A) i x l' : vset l i x = Ok l' ->
  0 <= i < len l /\ l' = update (Z.to_nat i) x l.
Proof.
  intros. unfold vset in H. destruct (Z.leb_spec 0 i), (Z.ltb_spec i (len l)); simpl in *; try discriminate.
  inversion H; auto.
Qed.
Lemma nth_update {A} (d : A) n m x l : (n < length l)%nat ->
  nth m (update n x l) d = if Nat.eqb m n then x else nth m l d.
Proof.
  revert n m; induction l; intros [|n] [|m] H; simpl in *; try lia; auto.
  rewrite IHl by lia. reflexivity.
Qed.
Lemma znth_update {A} (d : A) l i j x : 0 <= i < len l -> 0 <= j ->
  znth d (update (Z.to_nat i) x l) j = if j =? i then x else znth d l j.
Proof.
  intros. unfold znth, len in *. rewrite nth_update by lia.
  destruct (Nat.eqb_spec (Z.to_nat j) (Z.to_nat i)), (Z.eqb_spec j i); auto; lia.
Qed.

(** ** uninit / freeze *)
Lemma uninit_ok A n : 0 <= n -> uninit A n = Ok (repeat None (Z.to_nat n)).
Proof. intros. unfold uninit. destruct (Z.ltb_spec n 0); [lia|reflexivity]. Qed.
Lemma vmake_ok {A} n (x : A) : 0 <= n -> vmake n x = Ok (repeat x (Z.to_nat n)).
Proof. intros. unfold vmake. destruct (Z.ltb_spec n 0); [lia|reflexivity]. Qed.
Lemma freeze_map_Some {A} (l : list A) : freeze (map Some l) = Ok l.
Proof. induction l; simpl; [reflexivity|]. rewrite IHl. reflexivity. Qed.
Lemma freeze_inv {A} (l : list (option A)) l' : freeze l = Ok l' -> l = map Some l'.
Proof.
  revert l'; induction l as [|[a|] l IH]; simpl; intros l' H.
  - inversion H; reflexivity.
  - apply bind_Ok in H. destruct H as [r [H1 H2]]. inversion H2; subst. simpl. f_equal; auto.
  - discriminate.
Qed.
Lemma freeze_ok {A} (d : A) (l : list (option A)) (f : Z -> A) :
  (forall i, 0 <= i < len l -> znth None l i = Some (f i)) ->
  exists l', freeze l = Ok l' /\ len l' = len l /\ forall i, 0 <= i < len l -> znth d l' i = f i.
Proof.
  revert f; induction l as [|o l IH]; intros f H.
  - exists []. repeat split; auto. intros i Hi. change (len (@nil (option A))) with 0 in Hi; lia.
  - assert (o = Some (f 0)) as E.
    { specialize (H 0). rewrite znth_0 in H. apply H. rewrite len_cons. pose proof (len_nonneg l). lia. }
    subst o. destruct (IH (fun i => f (i + 1))) as [l' [E [L P]]].
    { intros i Hi. specialize (H (i + 1)). rewrite znth_cons in H by lia.
      replace (i + 1 - 1) with i in H by lia. apply H. rewrite len_cons; lia. }
    exists (f 0 :: l'). simpl. rewrite E. repeat split.
    + rewrite !len_cons; lia.
    + intros i Hi. rewrite len_cons in Hi. destruct (Z.eq_dec i 0).
      * subst; apply znth_0.
      * rewrite znth_cons by lia. rewrite P by lia. f_equal; lia.
Qed.

(** ** vinsert *)
Lemma vinsert_ok {A} (l : list A) pos n x : 0 <= pos <= len l -> 0 <= n ->
  vinsert l pos n x = Ok (firstn (Z.to_nat pos) l ++ repeat x (Z.to_nat n) ++ skipn (Z.to_nat pos) l).
Proof.
  intros. unfold vinsert. destruct (Z.leb_spec 0 pos); [|lia].
  destruct (Z.leb_spec pos (len l)); [|lia]. destruct (Z.ltb_spec n 0); [lia|]. reflexivity.
Qed.
Lemma vinsert_inv {A} (l : list A) pos n x l' : vinsert l pos n x = Ok l' ->
  0 <= pos <= len l /\ 0 <= n /\
  l' = firstn (Z.to_nat pos) l ++ repeat x (Z.to_nat n) ++ skipn (Z.to_nat pos) l.
Proof.
  unfold vinsert. destruct (Z.leb_spec 0 pos), (Z.leb_spec pos (len l)); simpl; try discriminate.
  destruct (Z.ltb_spec n 0); [discriminate|]. intros E; inversion E; auto.
Qed.
Lemma len_inserted {A} (l : list A) pos n x : 0 <= pos <= len l -> 0 <= n ->
  len (firstn (Z.to_nat pos) l ++ repeat x (Z.to_nat n) ++ skipn (Z.to_nat pos) l) = len l + n.
Proof. intros. rewrite !len_app, len_firstn, len_repeat, len_skipn. lia. Qed.
Lemma znth_inserted {A} (d : A) l pos n x i : 0 <= pos <= len l -> 0 <= n -> 0 <= i ->
  znth d (firstn (Z.to_nat pos) l ++ repeat x (Z.to_nat n) ++ skipn (Z.to_nat pos) l) i
  = if i <? pos then znth d l i else if i <? pos + n then x else znth d l (i - n).
Proof.
  intros. rewrite znth_app by lia. rewrite len_firstn.
  replace (Z.min (Z.max pos 0) (len l)) with pos by lia.
  destruct (Z.ltb_spec i pos).
  - rewrite znth_firstn by lia. reflexivity.
  - rewrite znth_app by lia. rewrite len_repeat. replace (Z.max n 0) with n by lia.
    destruct (Z.ltb_spec (i - pos) n), (Z.ltb_spec i (pos + n)); try lia.
    + rewrite znth_repeat by lia. reflexivity.
    + rewrite znth_skipn by lia. f_equal; lia.
Qed.
Lemma inserted_permutation {A} (l : list A) k r :
  Permutation (firstn k l ++ r ++ skipn k l) (r ++ l).
Proof.
  etransitivity; [apply Permutation_app_swap_app|]. apply Permutation_app_head.
  rewrite firstn_skipn. apply Permutation_refl.
Qed.

(** ** loops *)
Lemma for_up_empty {S} lo hi (body : Z -> S -> outcome S) s : hi <= lo -> for_up lo hi body s = Ok s.
Proof. intros. unfold for_up. replace (Z.to_nat (hi - lo)) with O by lia. reflexivity. Qed.
Lemma for_up_first {S} lo hi (body : Z -> S -> outcome S) s : lo < hi ->
  for_up lo hi body s = bind (body lo s) (for_up (lo + 1) hi body).
Proof.
  intros. unfold for_up. replace (Z.to_nat (hi - lo)) with (Datatypes.S (Z.to_nat (hi - (lo + 1)))) by lia.
  reflexivity.
Qed.
Lemma loop_last {S} n i (body : Z -> S -> outcome S) s :
  loop (Datatypes.S n) i body s = bind (loop n i body s) (body (i + Z.of_nat n)).
Proof.
  revert i s; induction n; intros i s.
  - simpl. replace (i + 0) with i by lia. destruct (body i s); reflexivity.
  - change (loop (Datatypes.S (Datatypes.S n)) i body s)
      with (bind (body i s) (loop (Datatypes.S n) (i + 1) body)).
    change (loop (Datatypes.S n) i body s) with (bind (body i s) (loop n (i + 1) body)).
    destruct (body i s); cbn [bind]; auto.
    rewrite IHn. replace (i + 1 + Z.of_nat n) with (i + Z.of_nat (Datatypes.S n)) by lia. reflexivity.
Qed.
Lemma for_up_last {S} lo hi (body : Z -> S -> outcome S) s : lo <= hi ->
  for_up lo (hi + 1) body s = bind (for_up lo hi body s) (body hi).
Proof.
  intros. unfold for_up. replace (Z.to_nat (hi + 1 - lo)) with (Datatypes.S (Z.to_nat (hi - lo))) by lia.
  rewrite loop_last. replace (lo + Z.of_nat (Z.to_nat (hi - lo))) with hi by lia. reflexivity.
Qed.
(** total correctness by invariant *)
Lemma for_up_inv {S} (P : Z -> S -> Prop) lo hi (body : Z -> S -> outcome S) s :
  lo <= hi -> P lo s ->
  (forall i s, lo <= i < hi -> P i s -> exists s', body i s = Ok s' /\ P (i + 1) s') ->
  exists s', for_up lo hi body s = Ok s' /\ P hi s'.
Proof.
  intros L P0 St. assert (forall n : nat, lo + Z.of_nat n <= hi ->
    exists s', for_up lo (lo + Z.of_nat n) body s = Ok s' /\ P (lo + Z.of_nat n) s') as H.
  { induction n; intros Hn.
    - exists s. replace (lo + Z.of_nat 0) with lo by lia. rewrite for_up_empty by lia. auto.
    - destruct IHn as [s1 [E1 P1]]; [lia|].
      destruct (St (lo + Z.of_nat n) s1) as [s2 [E2 P2]]; [lia|assumption|].
      exists s2. replace (lo + Z.of_nat (Datatypes.S n)) with (lo + Z.of_nat n + 1) by lia.
      rewrite for_up_last by lia. rewrite E1. simpl. auto. }
  destruct (H (Z.to_nat (hi - lo))) as [s' [E Q]]; [lia|].
  replace (lo + Z.of_nat (Z.to_nat (hi - lo))) with hi in * by lia. eauto.
Qed.
(** partial correctness by invariant *)
Lemma for_up_inv_partial {S} (P : Z -> S -> Prop) lo hi (body : Z -> S -> outcome S) s s' :
  lo <= hi -> P lo s ->
  (forall i s s', lo <= i < hi -> P i s -> body i s = Ok s' -> P (i + 1) s') ->
  for_up lo hi body s = Ok s' -> P hi s'.
Proof.
  intros L P0 St E. assert (forall n : nat, lo + Z.of_nat n <= hi -> forall s1,
    for_up lo (lo + Z.of_nat n) body s = Ok s1 -> P (lo + Z.of_nat n) s1) as H.
  { induction n; intros Hn s1 E1.
    - replace (lo + Z.of_nat 0) with lo in * by lia. rewrite for_up_empty in E1 by lia.
      inversion E1; subst; auto.
    - replace (lo + Z.of_nat (Datatypes.S n)) with (lo + Z.of_nat n + 1) in * by lia.
      rewrite for_up_last in E1 by lia. bindinv E1.
      eapply St; eauto. lia. apply IHn; [lia|assumption]. }
  specialize (H (Z.to_nat (hi - lo))). replace (lo + Z.of_nat (Z.to_nat (hi - lo))) with hi in * by lia.
  apply H; [lia|assumption].
Qed.
Lemma for_up_ext {S} lo hi (b1 b2 : Z -> S -> outcome S) s :
  (forall i s, lo <= i < hi -> b1 i s = b2 i s) -> for_up lo hi b1 s = for_up lo hi b2 s.
Proof.
  intros H. unfold for_up. assert (forall n i s, lo <= i -> i + Z.of_nat n <= hi ->
    loop n i b1 s = loop n i b2 s) as G.
  { induction n; intros i s0 L1 L2; simpl; auto. rewrite H by lia.
    destruct (b2 i s0); simpl; auto. apply IHn; lia. }
  destruct (Z_le_gt_dec lo hi).
  - apply G; lia.
  - replace (Z.to_nat (hi - lo)) with O by lia. reflexivity.
Qed.

Lemma for_down_empty {S} hi lo (body : Z -> S -> outcome S) s : hi < lo -> for_down hi lo body s = Ok s.
Proof. intros. unfold for_down. replace (Z.to_nat (hi - lo + 1)) with O by lia. reflexivity. Qed.
Lemma for_down_first {S} hi lo (body : Z -> S -> outcome S) s : lo <= hi ->
  for_down hi lo body s = bind (body hi s) (for_down (hi - 1) lo body).
Proof.
  intros. unfold for_down.
  replace (Z.to_nat (hi - lo + 1)) with (Datatypes.S (Z.to_nat (hi - 1 - lo + 1))) by lia. reflexivity.
Qed.
(** invariant P i: the state before the iteration with index i *)
Lemma for_down_inv {S} (P : Z -> S -> Prop) hi lo (body : Z -> S -> outcome S) s :
  lo - 1 <= hi -> P hi s ->
  (forall i s, lo <= i <= hi -> P i s -> exists s', body i s = Ok s' /\ P (i - 1) s') ->
  exists s', for_down hi lo body s = Ok s' /\ P (lo - 1) s'.
Proof.
  intros L. remember (Z.to_nat (hi - lo + 1)) as n. revert hi s L Heqn.
  induction n; intros hi s L En P0 St.
  - rewrite for_down_empty by lia. replace (lo - 1) with hi by lia. eauto.
  - rewrite for_down_first by lia. destruct (St hi s) as [s1 [E1 P1]]; [lia|assumption|].
    rewrite E1; simpl. apply IHn; try lia; auto. intros; apply St; auto; lia.
Qed.

(** ** tabulate *)
Definition zrange (lo hi : Z) : list Z := map (fun n => lo + Z.of_nat n) (seq 0 (Z.to_nat (hi - lo))).
Lemma len_zrange lo hi : len (zrange lo hi) = Z.max 0 (hi - lo).
Proof. unfold zrange. rewrite len_map. unfold len. rewrite seq_length. lia. Qed.
Lemma znth_zrange d lo hi i : 0 <= i < hi - lo -> znth d (zrange lo hi) i = lo + i.
Proof.
  intros. unfold zrange. rewrite znth_map with (d := O).
  - unfold znth. rewrite seq_nth by lia. lia.
  - unfold len. rewrite seq_length. lia.
Qed.
Lemma In_zrange lo hi i : In i (zrange lo hi) <-> lo <= i < hi.
Proof.
  unfold zrange. rewrite in_map_iff. split.
  - intros [n [E H]]. apply in_seq in H. lia.
  - intros. exists (Z.to_nat (i - lo)). split; [lia|]. apply in_seq. lia.
Qed.
Lemma zrange_first lo hi : lo < hi -> zrange lo hi = lo :: zrange (lo + 1) hi.
Proof.
  intros. unfold zrange. replace (Z.to_nat (hi - lo)) with (S (Z.to_nat (hi - (lo + 1)))) by lia.
  simpl. f_equal; [lia|]. rewrite <- seq_shift, map_map. apply map_ext. intros; lia.
Qed.
Lemma zrange_empty lo hi : hi <= lo -> zrange lo hi = [].
Proof. intros. unfold zrange. replace (Z.to_nat (hi - lo)) with O by lia. reflexivity. Qed.
Lemma tabulate_ok {A} lo hi (f : Z -> outcome A) (g : Z -> A) :
  (forall i, lo <= i < hi -> f i = Ok (g i)) -> tabulate lo hi f = Ok (map g (zrange lo hi)).
Proof.
  intros H. unfold tabulate. remember (Z.to_nat (hi - lo)) as n. revert lo H Heqn.
  induction n; intros lo H E; simpl.
  - rewrite zrange_empty by lia. reflexivity.
  - rewrite H by lia. simpl. rewrite IHn by (try lia; intros; apply H; lia). simpl.
    rewrite (zrange_first lo) by lia. reflexivity.
Qed.
Lemma tabulate_inv {A} (d : A) lo hi (f : Z -> outcome A) l : tabulate lo hi f = Ok l ->
  len l = Z.max 0 (hi - lo) /\ forall i, lo <= i < hi -> f i = Ok (znth d l (i - lo)).
Proof.
  unfold tabulate. remember (Z.to_nat (hi - lo)) as n. revert lo l Heqn.
  induction n; intros lo l E H; simpl in H.
  - inversion H; subst. rewrite len_nil. split; [lia|intros; lia].
  - apply bind_Ok in H. destruct H as [a [H1 H]]. apply bind_Ok in H. destruct H as [r [H2 H3]].
    inversion H3; subst. apply IHn in H2; [|lia]. destruct H2 as [L P]. rewrite len_cons. split; [lia|].
    intros i Hi. destruct (Z.eq_dec i lo).
    + subst. replace (lo - lo) with 0 by lia. rewrite znth_0. assumption.
    + rewrite znth_cons by lia. rewrite P by lia. do 2 f_equal; lia.
Qed.

(** ** mapM / foldM *)
Lemma mapM_ok {A B} (f : A -> outcome B) (g : A -> B) l :
  (forall a, In a l -> f a = Ok (g a)) -> mapM f l = Ok (map g l).
Proof.
  induction l; intros H; simpl; auto. rewrite H by (left; auto). simpl.
  rewrite IHl by (intros; apply H; right; auto). reflexivity.
Qed.
Lemma foldM_inv {A S} (P : list A -> S -> Prop) (f : S -> A -> outcome S) l s :
  P l s -> (forall a r s, P (a :: r) s -> exists s', f s a = Ok s' /\ P r s') ->
  exists s', foldM f l s = Ok s' /\ P [] s'.
Proof.
  intros P0 St; revert s P0; induction l; intros s P0; simpl; eauto.
  destruct (St _ _ _ P0) as [s1 [E1 P1]]. rewrite E1. simpl. auto.
Qed.
Lemma foldM_app {A S} (f : S -> A -> outcome S) l1 l2 s :
  foldM f (l1 ++ l2) s = bind (foldM f l1 s) (foldM f l2).
Proof.
  revert s; induction l1; intros s; simpl; auto. destruct (f s a); simpl; auto.
Qed.
