(** Model of src/Algorithm/KnotRemoval.cpp and src/Algorithm/DegreeAlgo.cpp. *)
From Coq Require Import List ZArith QArith Bool.
From Verif Require Import Outcome Num ModelCore.
Import ListNotations.
Open Scope Z_scope.

(** [v.resize(n)] for a new size given as a C++ int expression converted to
    size_t: a negative one throws; growing appends [fill]. *)
Definition vresize {A} (l : list A) (n : Z) (fill : A) : outcome (list A) :=
  if n <? 0 then Throw LengthError
  else Ok (firstn (Z.to_nat n) l ++ repeat fill (Z.to_nat (n - len l))).

Section Algo.
  Context {T : Type} `{Num T}.

  (** [for (auto& p : points) p.head<3>() *= p.w();]
      (KnotRemoval.cpp:28-31, DegreeAlgo.cpp:13-16) is [map ToHomo];
      [/= p.w()] (KnotRemoval.cpp:123-126, DegreeAlgo.cpp:204-207) is [mapM FromHomo]. *)

  (** * KnotRemoval.cpp *)

  (** KnotRemoval.cpp:8-18 *)
  Definition CalcTOL (points : list (vec4 T)) (epsilon : T) : outcome T :=
    let '(w_min, dist_max) :=
      fold_left (fun '(w_min, dist_max) p => (nmin w_min (w4 p), nmax dist_max (v3norm (head3 p))))
                points (nlit (1000000000000 # 1), n0) in
    ndiv (nmul epsilon w_min) (nadd n1 dist_max).

  (** KnotRemoval.cpp:57-70: the computing [while (j - i > t)] loop; state is
      (i, j, ii, jj, temp). *)
  Definition removal_sweep (knots : list T) (points : list (vec4 T)) (order : Z) (u : T) (t : Z)
      (st : Z * Z * Z * Z * list (option (vec4 T)))
    : outcome (Z * Z * Z * Z * list (option (vec4 T))) :=
    let '(i0, j0, _, _, _) := st in
    while_ (Z.to_nat (j0 - i0 + 1))
      (fun '(i, j, _, _, _) => Ok (j - i >? t))
      (fun '(i, j, ii, jj, temp) =>
         ki <- vget knots i ;;
         ki' <- vget knots (i + order + t) ;;
         alphai <- ndiv (nsub u ki) (nsub ki' ki) ;;
         kj <- vget knots (j - t) ;;
         kj' <- vget knots (j + order) ;;
         alphaj <- ndiv (nsub u kj) (nsub kj' kj) ;;
         pi <- vget points i ;;
         ti <- ugets temp (ii - 1) ;;
         qi <- v4div (v4sub pi (v4scale (nsub n1 alphai) ti)) alphai ;;
         temp <- usets temp ii qi ;;
         pj <- vget points j ;;
         tj <- ugets temp (jj + 1) ;;
         qj <- v4div (v4sub pj (v4scale alphaj tj)) (nsub n1 alphaj) ;;
         temp <- usets temp jj qj ;;
         Ok (i + 1, j - 1, ii + 1, jj - 1, temp))
      st.

  (** KnotRemoval.cpp:84-92: the copy-back [while (j - i > t)] loop; state is (i, j, points). *)
  Definition removal_copy (temp : list (option (vec4 T))) (off t : Z)
      (st : Z * Z * list (vec4 T)) : outcome (Z * Z * list (vec4 T)) :=
    let '(i0, j0, _) := st in
    while_ (Z.to_nat (j0 - i0 + 1))
      (fun '(i, j, _) => Ok (j - i >? t))
      (fun '(i, j, points) =>
         ti <- ugets temp (i - off) ;;
         points <- vset points i ti ;;
         tj <- ugets temp (j - off) ;;
         points <- vset points j tj ;;
         Ok (i + 1, j - 1, points))
      st.

  (** KnotRemoval.cpp:47-96: the removal attempts, from attempt number [t] with
      [n] attempts left.  Returns the final [t] and the points. *)
  Fixpoint removal_loop (n : nat) (knots : list T) (order : Z) (u tol : T)
      (t first last : Z) (points : list (vec4 T)) (temp : list (option (vec4 T)))
    : outcome (Z * list (vec4 T)) :=
    match n with
    | O => Ok (t, points)
    | S n' =>
        let off := first - 1 in
        p0 <- vget points off ;;
        temp <- usets temp 0 p0 ;;
        p1 <- vget points (last + 1) ;;
        temp <- usets temp (last + 1 - off) p1 ;;
        '(i, j, ii, jj, temp) <- removal_sweep knots points order u t
                                   (first, last, 1, last - off, temp) ;;
        dist <- (if j - i <? t then
                   a <- ugets temp (ii - 1) ;;
                   b <- ugets temp (jj + 1) ;;
                   Ok (v4norm (v4sub a b))
                 else
                   ki <- vget knots i ;;
                   ki' <- vget knots (i + order + t) ;;
                   alphai <- ndiv (nsub u ki) (nsub ki' ki) ;;
                   a <- ugets temp (ii + t + 1) ;;
                   b <- ugets temp (ii - 1) ;;
                   p <- vget points i ;;
                   Ok (v4norm (v4sub (v4add (v4scale alphai a) (v4scale (nsub n1 alphai) b)) p))) ;;
        if ngtb dist tol then Ok (t, points)
        else
          '(_, _, points) <- removal_copy temp off t (first, last, points) ;;
          removal_loop n' knots order u tol (t + 1) (first - 1) (last + 1) points temp
    end.

  (** KnotRemoval.cpp:23-129: returns (t, knots, points) after the call. *)
  Definition KnotRemoval (knots : list T) (points : list (vec4 T)) (degree : Z)
      (knot_remove : T) (times : Z) (tolerance : T)
    : outcome (Z * list T * list (vec4 T)) :=
    let points := map ToHomo points in
    let s := KnotVector_GetMultiplicity knots knot_remove in
    r <- KnotVector_FindSpanIndex knots degree knot_remove ;;
    tol <- CalcTOL points tolerance ;;
    let n := len points - 1 in
    let m := n + degree + 1 in
    let order := degree + 1 in
    let last := r - s in
    let first := r - degree in
    temp <- uninit (vec4 T) (2 * degree + 1) ;;
    '(t, points) <- removal_loop (Z.to_nat times) knots order knot_remove tol 0 first last points temp ;;
    if t =? 0 then Ok (t, knots, points)     (* line 99: points stay homogeneous *)
    else
      let j := Z.quot (2 * r - s - degree) 2 in
      '(i, j) <- for_up 1 t (fun k '(i, j) =>
          Ok (i + (if Z.rem k 2 =? 1 then 1 else 0), j - (if Z.rem k 2 =? 1 then 0 else 1))) (j, j) ;;
      (* lines 108-113 *)
      '(points, _) <- for_up (i + 1) (n + 1) (fun k '(points, j) =>
          p <- vget points k ;;
          points <- vset points j p ;;
          Ok (points, j + 1)) (points, j) ;;
      points <- vresize points (len points - times) v4zero ;;
      (* lines 115-120 *)
      knots <- for_up (r + 1) (m + 1) (fun k knots =>
          x <- vget knots k ;;
          vset knots (k - times) x) knots ;;
      knots <- vresize knots (len knots - times) n0 ;;
      (* lines 122-126 *)
      points <- mapM FromHomo points ;;
      Ok (t, knots, points).

  (** * DegreeAlgo.cpp *)

  (** [bezalfs[i][j]] access *)
  Definition get2 (m : list (list T)) (i j : Z) : outcome T := row <- vget m i ;; vget row j.
  Definition set2 (m : list (list T)) (i j : Z) (x : T) : outcome (list (list T)) :=
    row <- vget m i ;; row <- vset row j x ;; vset m i row.

  (** DegreeAlgo.cpp:22-46: Bezier degree elevation coefficients. *)
  Definition elevation_bezalfs (degree times : Z) : outcome (list (list T)) :=
    let ph := degree + times in
    let ph2 := Z.quot ph 2 in
    row <- vmake (degree + 1) n0 ;;
    bezalfs <- vmake (degree + times + 1) row ;;
    bezalfs <- set2 bezalfs ph degree n1 ;;
    bezalfs <- set2 bezalfs 0 0 n1 ;;
    bezalfs <- for_up 1 (ph2 + 1) (fun i bezalfs =>
        b <- Binomial ph i ;;
        inv <- ndiv n1 (nofZ b) ;;
        let mpi := Z.min degree i in
        for_up (Z.max 0 (i - times)) (mpi + 1) (fun j bezalfs =>
            b1 <- Binomial degree j ;;
            b2 <- Binomial times (i - j) ;;
            set2 bezalfs i j (nmul (nmul inv (nofZ b1)) (nofZ b2))) bezalfs) bezalfs ;;
    for_up (ph2 + 1) ph (fun i bezalfs =>
        let mpi := Z.min degree i in
        for_up (Z.max 0 (i - times)) (mpi + 1) (fun j bezalfs =>
            e <- get2 bezalfs (ph - i) (degree - j) ;;
            set2 bezalfs i j e) bezalfs) bezalfs.

  (** Mutable state of the main loop, DegreeAlgo.cpp:48-64. *)
  Record estate := ES {
    es_mh : Z; es_kind : Z; es_r : Z; es_a : Z; es_b : Z; es_cind : Z; es_ua : T;
    es_Qw : list (option (vec4 T)); es_Uh : list T;
    es_bpts : list (vec4 T); es_nextbpts : list (option (vec4 T)); es_ebpts : list (option (vec4 T)) }.

  (** DegreeAlgo.cpp:69-72 *)
  Definition elevation_scan (knots : list T) (m b : Z) : outcome Z :=
    while_ (Z.to_nat (m - b + 1))
      (fun b => if b <? m then
                  kb <- vget knots b ;; kb1 <- vget knots (b + 1) ;; Ok (Approx kb kb1 lit_1e_6)
                else Ok false)
      (fun b => Ok (b + 1)) b.

  (** DegreeAlgo.cpp:83-102: insert the knot [ub] r times (only when r > 0). *)
  Definition elevation_insert (knots : list T) (degree mul r a : Z) (ua ub : T)
      (bpts : list (vec4 T)) (nextbpts : list (option (vec4 T)))
    : outcome (list (vec4 T) * list (option (vec4 T))) :=
    if r >? 0 then
      let numer := nsub ub ua in
      alfs <- vmake (degree - 1) n0 ;;
      alfs <- for_down degree (mul + 1) (fun k alfs =>
          ka <- vget knots (a + k) ;;
          q <- ndiv numer (nsub ka ua) ;;
          vset alfs (k - mul - 1) q) alfs ;;
      for_up 1 (r + 1) (fun j '(bpts, nextbpts) =>
          let save := r - j in
          let s := mul + j in
          bpts <- for_down degree s (fun k bpts =>
              alf <- vget alfs (k - s) ;;
              bk <- vget bpts k ;;
              bk1 <- vget bpts (k - 1) ;;
              vset bpts k (v4add (v4scale alf bk) (v4scale (nsub n1 alf) bk1))) bpts ;;
          bp <- vget bpts degree ;;
          nextbpts <- usets nextbpts save bp ;;
          Ok (bpts, nextbpts)) (bpts, nextbpts)
    else Ok (bpts, nextbpts).

  (** DegreeAlgo.cpp:104-112: degree elevate the Bezier segment. *)
  Definition elevation_bezier (degree times lbz : Z) (bezalfs : list (list T))
      (bpts : list (vec4 T)) (ebpts : list (option (vec4 T))) : outcome (list (option (vec4 T))) :=
    let ph := degree + times in
    for_up lbz (ph + 1) (fun i ebpts =>
        ebpts <- usets ebpts i v4zero ;;
        let mpi := Z.min degree i in
        for_up (Z.max 0 (i - times)) (mpi + 1) (fun j ebpts =>
            c <- get2 bezalfs i j ;;
            bj <- vget bpts j ;;
            e <- ugets ebpts i ;;
            usets ebpts i (v4add e (v4scale c bj))) ebpts) ebpts.

  (** DegreeAlgo.cpp:127-151: one pass of the knot-removal loop; state is
      (i, j, kj, Qw, ebpts). *)
  Definition elevation_remove_pass (ph kind lbz cind oldr tr : Z) (ua ub den bet : T) (Uh : list T)
      (st : Z * Z * Z * list (option (vec4 T)) * list (option (vec4 T)))
    : outcome (Z * Z * Z * list (option (vec4 T)) * list (option (vec4 T))) :=
    let '(i0, j0, _, _, _) := st in
    while_ (Z.to_nat (j0 - i0 + 1))
      (fun '(i, j, _, _, _) => Ok (j - i >? tr))
      (fun '(i, j, kj, Qw, ebpts) =>
         Qw <- (if i <? cind then
                  ui <- vget Uh i ;;
                  alf <- ndiv (nsub ub ui) (nsub ua ui) ;;
                  qi <- ugets Qw i ;;
                  qi1 <- ugets Qw (i - 1) ;;
                  usets Qw i (v4add (v4scale alf qi) (v4scale (nsub n1 alf) qi1))
                else Ok Qw) ;;
         ebpts <- (if lbz <=? j then
                  g <- (if j - tr <=? kind - ph + oldr then
                          uj <- vget Uh (j - tr) ;; ndiv (nsub ub uj) den
                        else Ok bet) ;;
                  ek <- ugets ebpts kj ;;
                  ek1 <- ugets ebpts (kj + 1) ;;
                  usets ebpts kj (v4add (v4scale g ek) (v4scale (nsub n1 g) ek1))
                else Ok ebpts) ;;
         Ok (i + 1, j - 1, kj - 1, Qw, ebpts))
      st.

  (** DegreeAlgo.cpp:114-157: remove the knot [ua] oldr-1 times (only when oldr > 1). *)
  Definition elevation_remove (ph kind lbz cind oldr : Z) (ua ub : T) (Uh : list T)
      (Qw ebpts : list (option (vec4 T)))
    : outcome (list (option (vec4 T)) * list (option (vec4 T))) :=
    if oldr >? 1 then
      let den := nsub ub ua in
      uk <- vget Uh (kind - 1) ;;
      bet <- ndiv (nsub ub uk) den ;;
      '(_, _, Qw, ebpts) <- for_up 1 oldr (fun tr '(first, last, Qw, ebpts) =>
          '(_, _, _, Qw, ebpts) <- elevation_remove_pass ph kind lbz cind oldr tr ua ub den bet Uh
                                     (first, last, last - kind + 1, Qw, ebpts) ;;
          Ok (first - 1, last + 1, Qw, ebpts)) (kind - 2, kind, Qw, ebpts) ;;
      Ok (Qw, ebpts)
    else Ok (Qw, ebpts).

  (** DegreeAlgo.cpp:66-197: one iteration of the main loop. *)
  Definition elevation_step (knots : list T) (points : list (vec4 T)) (degree times m : Z)
      (bezalfs : list (list T)) (st : estate) : outcome estate :=
    let ph := degree + times in
    let ii := es_b st in
    b <- elevation_scan knots m (es_b st) ;;
    let mul := b - ii + 1 in
    let mh := es_mh st + (mul + times) in
    ub <- vget knots b ;;
    let oldr := es_r st in
    let r := degree - mul in
    let lbz := if oldr >? 0 then Z.quot (oldr + 2) 2 else 1 in
    let rbz := if r >? 0 then ph - Z.quot (r + 1) 2 else ph in
    let ua := es_ua st in
    '(bpts, nextbpts) <- elevation_insert knots degree mul r (es_a st) ua ub (es_bpts st) (es_nextbpts st) ;;
    ebpts <- elevation_bezier degree times lbz bezalfs bpts (es_ebpts st) ;;
    '(Qw, ebpts) <- elevation_remove ph (es_kind st) lbz (es_cind st) oldr ua ub (es_Uh st) (es_Qw st) ebpts ;;
    (* lines 159-166 *)
    '(Uh, kind) <- (if negb (es_a st =? degree) then
        for_up 0 (ph - oldr) (fun _ '(Uh, kind) =>
            Uh <- vset Uh kind ua ;; Ok (Uh, kind + 1)) (es_Uh st, es_kind st)
      else Ok (es_Uh st, es_kind st)) ;;
    (* lines 168-172 *)
    '(Qw, cind) <- for_up lbz (rbz + 1) (fun j '(Qw, cind) =>
        e <- vget ebpts j ;; Qw <- vset Qw cind e ;; Ok (Qw, cind + 1)) (Qw, es_cind st) ;;
    (* lines 174-195 *)
    if b <? m then
      bpts <- for_up 0 r (fun j bpts => x <- ugets nextbpts j ;; vset bpts j x) bpts ;;
      bpts <- for_up r (degree + 1) (fun j bpts =>
          x <- vget points (b - degree + j) ;; vset bpts j x) bpts ;;
      Ok (ES mh kind r b (b + 1) cind ub Qw Uh bpts nextbpts ebpts)
    else
      Uh <- for_up 0 (ph + 1) (fun i Uh => vset Uh (kind + i) ub) Uh ;;
      Ok (ES mh kind r (es_a st) b cind ua Qw Uh bpts nextbpts ebpts).

  (** DegreeAlgo.cpp:8-212: returns (degree, knots, points) after the call. *)
  Definition NurbsDegreeElevation (knots : list T) (points : list (vec4 T)) (degree times : Z)
    : outcome (Z * list T * list (vec4 T)) :=
    assert_ (1 <=? times) ;;;
    let points := map ToHomo points in
    let n := len points - 1 in
    let m := n + degree + 1 in
    let ph := degree + times in
    bezalfs <- elevation_bezalfs degree times ;;
    ua <- vget knots 0 ;;
    Qw <- uninit (vec4 T) ((n + times) * 2) ;;
    p0 <- vget points 0 ;;
    Qw <- usets Qw 0 p0 ;;
    Uh <- vmake ((n + times) * 2 + ph + 1) n0 ;;
    Uh <- for_up 0 (ph + 1) (fun i Uh => vset Uh i ua) Uh ;;
    bpts <- tabulate 0 (degree + 1) (fun i => vget points i) ;;
    nextbpts <- uninit (vec4 T) (degree - 1) ;;
    ebpts <- uninit (vec4 T) (degree + times + 1) ;;
    st <- while_ (Z.to_nat m)
            (fun st => Ok (es_b st <? m))
            (elevation_step knots points degree times m bezalfs)
            (ES ph (ph + 1) (-1) degree (degree + 1) 1 ua Qw Uh bpts nextbpts ebpts) ;;
    let nh := es_mh st - ph - 1 in
    Qw <- vresize (es_Qw st) (nh + 1) None ;;
    Uh <- vresize (es_Uh st) (es_mh st + 1) n0 ;;
    Qw <- freeze Qw ;;
    Qw <- mapM FromHomo Qw ;;
    kv <- KnotVector_make Uh ;;
    Ok (ph, kv, Qw).
End Algo.
