(* Kernel columns and rows are the matrix product. *)
From Coq Require Import Reals Lra ZifyBool.
From Verif Require Import Common ArrayLib PWModel PWSpec PWChnProofs SwpModel SparseModel GridSpec GridPropsLemmas PermPropsLemmas
  PotentialSpec PotentialProofs PotentialMatProofs PotentialPropsLemmas KernelModel KernelSpec KernelProofs KernelBlockProofs.
Open Scope nat_scope.

Fixpoint fsum {X} (f : X -> R) (l : list X) : R := match l with [] => 0%R | x :: r => (f x + fsum f r)%R end.
Lemma fsum_app {X} (f : X -> R) l r : fsum f (l ++ r) = (fsum f l + fsum f r)%R.
Proof. induction l as [|x l IH]; cbn; [ lra | rewrite IH; lra ]. Qed.
Lemma fsum_seq f a n : fsum f (seq a n) = sum (fun k => f (a + k)%nat) n.
Proof.
  induction n as [|n IH]; [ reflexivity | ]. rewrite seq_S, fsum_app, IH, sum_S. cbn. lra.
Qed.
Lemma fsum_seq0 f n : fsum f (seq 0 n) = sum f n.
Proof. apply fsum_seq. Qed.

Lemma acc_loop {X I} (D : nat) (pos : I -> nat) (valid : I -> Prop) (f : list R -> X -> outcome (list R)) (g : X -> I -> R) l col :
  length col = D ->
  (forall x s, In x l -> length s = D -> exists s', f s x = Ok s' /\ length s' = D /\
     forall i, valid i -> nth (pos i) s' 0%R = (nth (pos i) s 0 + g x i)%R) ->
  exists col', ofold f l col = Ok col' /\ length col' = D /\
     forall i, valid i -> nth (pos i) col' 0%R = (nth (pos i) col 0 + fsum (fun x => g x i) l)%R.
Proof.
  revert col; induction l as [|x l IH]; intros col L H.
  - exists col. repeat split; [ exact L | ]. intros i _. cbn. lra.
  - destruct (H x col (or_introl eq_refl) L) as (s & E & Ls & Hs). cbn [ofold]. rewrite E. cbn [obind].
    destruct (IH s Ls) as (c' & E' & L' & H'); [ intros y t Hy; apply H; right; exact Hy | ].
    exists c'. split; [ exact E' | ]. split; [ exact L' | ]. intros i Hi. rewrite H', Hs by exact Hi. cbn [fsum]. lra.
Qed.

Lemma sum_delta (f : nat -> R) n k : k < n -> sum (fun x => if x =? k then f x else 0%R) n = f k.
Proof.
  induction n as [|n IH]; intros H; [ lia | ]. rewrite sum_S. destruct (Nat.eq_dec k n) as [->|Hne].
  - rewrite Nat.eqb_refl. rewrite sum_zero; [ lra | ]. intros i Hi. replace (i =? n) with false by lia. reflexivity.
  - rewrite IH by lia. replace (n =? k) with false by lia. lra.
Qed.
Lemma sum_restrict (f : nat -> R) lo hi n : lo <= hi <= n ->
  sum (fun k => if (lo <=? k) && (k <? hi) then f k else 0%R) n = sum (fun k => f (lo + k)) (hi - lo).
Proof.
  intros H. assert (Hsplit : forall f n m, sum f (n + m) = (sum f n + sum (fun k => f (n + k)%nat) m)%R).
  { intros g n' m. induction m as [|m IH]; [ rewrite Nat.add_0_r; unfold sum at 3; cbn; lra | ].
    rewrite Nat.add_succ_r, !sum_S, IH. lra. }
  replace n with (lo + ((hi - lo) + (n - hi))) by lia. rewrite !Hsplit.
  rewrite (sum_zero _ lo). 2:{ intros i Hi. replace (lo <=? i) with false by lia. reflexivity. }
  rewrite (sum_zero _ (n - hi)). 2:{ intros i Hi. replace (lo + (hi - lo + i) <? hi) with false by lia. rewrite andb_false_r. reflexivity. }
  rewrite (sum_ext _ (fun k => f (lo + k)) (hi - lo)); [ lra | ]. intros i Hi.
  replace (lo <=? lo + i) with true by lia. replace (lo + i <? hi) with true by lia. reflexivity.
Qed.

Lemma zeros_nth n i : nth i (repeat 0%R n) 0%R = 0%R.
Proof. revert i; induction n as [|n IH]; intros [|i]; cbn; auto. Qed.

Lemma add_at (s : list R) D k v : length s = D -> k < D ->
  exists s', (do old <- aread s k; awrite s k (old + v)%R) = Ok s' /\ length s' = D /\
    forall i, nth i s' 0%R = (nth i s 0 + if i =? k then v else 0)%R.
Proof.
  intros L Hk. rewrite areadn by lia. cbn [obind].
  destruct (awrite_ok s k (at_ s k + v)%R) as (s' & E & L' & W & O); [ lia | ].
  exists s'. split; [ exact E | ]. split; [ lia | ]. intros i. destruct (Nat.eqb_spec i k) as [->|Hne].
  - rewrite (nth_error_nth _ _ _ W). reflexivity.
  - specialize (O i Hne). destruct (nth_error s i) eqn:E2.
    + rewrite (nth_error_nth _ _ _ E2). rewrite (nth_error_nth _ _ _ O). lra.
    + apply nth_error_None in E2. rewrite !nth_overflow by lia. lra.
Qed.

(* ---------- indices ---------- *)
Lemma idx3_lt N Nq Np x : valid3 N Nq Np x -> idx3 Nq Np x < N * Nq * Np.
Proof. destruct x as [[a q] p]. intros (Ha & Hq & Hp). cbn. apply rm_lt; [ apply rm_lt; assumption | exact Hp ]. Qed.
Lemma idx3_inj N Nq Np x y : valid3 N Nq Np x -> valid3 N Nq Np y -> idx3 Nq Np x = idx3 Nq Np y -> x = y.
Proof.
  destruct x as [[a q] p], y as [[a' q'] p']. intros (Ha & Hq & Hp) (Ha' & Hq' & Hp') E. cbn in E.
  apply rm_inj in E; [ | assumption.. ]. destruct E as [E ->]. apply rm_inj in E; [ | assumption.. ]. destruct E as [-> ->]. reflexivity.
Qed.

Section Cols.
Variables (tensor iso : bool) (Np Nq : nat) (states : list pw) (P : csc).
Let N := length states.
Let D := N * Nq * Np.
Hypothesis HP : csc_ok D P.

(* one sparse column *)
Lemma sparse_col j v col : j < D -> length col = D ->
  exists col', ofold (fun col k => do x <- aread (c_val P) k; do row <- aread (c_row P) k;
                  do old <- aread col row; awrite col row (old + 2 * x * v)%R)
       (seq (nth j (c_col P) 0) (nth (j + 1) (c_col P) 0 - nth j (c_col P) 0)) col = Ok col' /\ length col' = D /\
    forall i, i < D -> nth i col' 0%R = (nth i col 0 + 2 * csc_elem P i j * v)%R.
Proof.
  intros Hj L. destruct HP as (L1 & L2 & Hrow & Hcol). specialize (Hcol j Hj). rewrite Nat.add_1_r.
  destruct (acc_loop D (fun i : nat => i) (fun i => i < D)
    (fun col k => do x <- aread (c_val P) k; do row <- aread (c_row P) k; do old <- aread col row; awrite col row (old + 2 * x * v)%R)
    (fun k i => if nth k (c_row P) 0 =? i then (2 * nth k (c_val P) 0 * v)%R else 0%R)
    (seq (nth j (c_col P) 0) (nth (S j) (c_col P) 0 - nth j (c_col P) 0)) col L) as (c' & E & L' & H').
  - intros k s Hk Ls. apply in_seq in Hk. rewrite areadn by lia. cbn [obind].
    destruct (aread_ok (c_row P) k) as (rw & Er & Nr); [ lia | ]. rewrite Er. cbn [obind].
    assert (Hr : rw < D) by (rewrite <- (nth_error_nth _ _ 0 Nr); apply Hrow; lia).
    destruct (add_at s D rw (2 * at_ (c_val P) k * v) Ls Hr) as (s' & Es & Ls' & Hs'). exists s'.
    split; [ exact Es | ]. split; [ exact Ls' | ]. intros i _. rewrite Hs'. rewrite (nth_error_nth _ _ 0 Nr).
    rewrite (Nat.eqb_sym i rw). reflexivity.
  - exists c'. split; [ exact E | ]. split; [ exact L' | ]. intros i Hi. rewrite H' by exact Hi. f_equal.
    rewrite fsum_seq. rewrite <- (sum_restrict (fun k => if nth k (c_row P) 0 =? i then (2 * nth k (c_val P) 0 * v)%R else 0%R) _ _ (length (c_val P)))
      by lia.
    replace (2 * csc_elem P i j * v)%R with ((2 * v) * csc_elem P i j)%R by ring. unfold csc_elem. rewrite <- sum_scal. apply sum_ext. intros k Hk.
    destruct ((nth j (c_col P) 0 <=? k) && (k <? nth (S j) (c_col P) 0)); cbn [andb]; [ | lra ].
    destruct (nth k (c_row P) 0 =? i); lra.
Qed.

(* column (ac, qc, pc) of 2 P VC *)
Lemma PVC_col_ok VC vc ac pc qc col : reads_as tensor Np states VC vc -> ac < N -> pc < Np -> qc < Nq -> length col = D ->
  exists col', PVC_col N Nq Np VC P ac pc qc col = Ok col' /\ length col' = D /\
    forall i, i < D -> nth i col' 0%R = (nth i col 0 +
      sum (fun aj => if connects tensor (nth ac states dummy_pw) (nth aj states dummy_pw)
                     then sum (fun pj => 2 * csc_elem P i (idx3 Nq Np (aj, qc, pj)) * vc ac aj pc pj) Np else 0) N)%R.
Proof.
  intros HV Ha Hp Hq L. unfold PVC_col.
  destruct (acc_loop D (fun i : nat => i) (fun i => i < D) (fun col aj =>
      do p <- aread (k_ptr VC) (ac * N + aj);
      match p with
      | None => Ok col
      | Some _ =>
          ofold (fun col pj =>
              do v <- kread VC p (pc * Np + pj);
              let j := aj * Np * Nq + qc * Np + pj in
              do lo <- aread (c_col P) j; do hi <- aread (c_col P) (j + 1);
              ofold (fun col k =>
                  do x <- aread (c_val P) k; do row <- aread (c_row P) k;
                  do old <- aread col row;
                  awrite col row (old + 2 * x * v)%R) (seq lo (hi - lo)) col) (seq 0 Np) col
      end)
    (fun aj i => if connects tensor (nth ac states dummy_pw) (nth aj states dummy_pw)
                     then sum (fun pj => 2 * csc_elem P i (idx3 Nq Np (aj, qc, pj)) * vc ac aj pc pj)%R Np else 0%R)
    (seq 0 N) col L) as (c' & E & L' & H').
  - intros aj s Haj Ls. apply in_seq in Haj. destruct (HV ac aj Ha ltac:(lia)) as (p & Ep & Hn & Hy).
    change (length states) with N in Ep. rewrite Ep. cbn [obind].
    destruct (connects tensor (nth ac states dummy_pw) (nth aj states dummy_pw)) eqn:Ec.
    + destruct (Hy eq_refl) as [Hp0 Hrd]. destruct p as [p|]; [ | contradiction ]. clear Hn Hy.
      destruct (acc_loop D (fun i : nat => i) (fun i => i < D) (fun col pj =>
              do v <- kread VC (Some p) (pc * Np + pj);
              let j := aj * Np * Nq + qc * Np + pj in
              do lo <- aread (c_col P) j; do hi <- aread (c_col P) (j + 1);
              ofold (fun col k =>
                  do x <- aread (c_val P) k; do row <- aread (c_row P) k;
                  do old <- aread col row;
                  awrite col row (old + 2 * x * v)%R) (seq lo (hi - lo)) col)
         (fun pj i => 2 * csc_elem P i (idx3 Nq Np (aj, qc, pj)) * vc ac aj pc pj)%R (seq 0 Np) s Ls) as (c' & E & L' & H').
      * intros pj t Hpj Lt. apply in_seq in Hpj. rewrite Hrd by lia. cbn [obind]. cbv zeta.
        assert (Ej : aj * Np * Nq + qc * Np + pj = idx3 Nq Np (aj, qc, pj)) by (cbn; ring). rewrite Ej.
        assert (Hj : idx3 Nq Np (aj, qc, pj) < D) by (apply idx3_lt; cbn; lia).
        destruct HP as (L1 & L2 & _).
        destruct (aread_ok (c_col P) (idx3 Nq Np (aj, qc, pj))) as (lo & El & Nl); [ lia | ]. rewrite El. cbn [obind].
        destruct (aread_ok (c_col P) (idx3 Nq Np (aj, qc, pj) + 1)) as (hi & Eh & Nh); [ lia | ]. rewrite Eh. cbn [obind].
        rewrite <- (nth_error_nth _ _ 0 Nl), <- (nth_error_nth _ _ 0 Nh). apply sparse_col; [ exact Hj | exact Lt ].
      * exists c'. split; [ exact E | ]. split; [ exact L' | ]. intros i Hi. rewrite H' by exact Hi. rewrite fsum_seq0. reflexivity.
    + rewrite (Hn eq_refl). exists s. split; [ reflexivity | ]. split; [ exact Ls | ]. intros; lra.
  - exists c'. split; [ exact E | ]. split; [ exact L' | ]. intros i Hi. rewrite H' by exact Hi. rewrite fsum_seq0. reflexivity.
Qed.

(* C^T times a vector *)
Definition ctv (ct : nat -> nat -> nat -> nat -> R) (pvc : nat -> R) (x : state3) : R :=
  let '(ar, qr, pr) := x in
  sum (fun ai => if connects tensor (nth ar states dummy_pw) (nth ai states dummy_pw)
                 then sum (fun pi => ct ar ai pr pi * pvc (idx3 Nq Np (ai, qr, pi)))%R Np else 0%R) N.

Lemma CPVC_col_ok CT VC ct vc ac pc qc : reads_as tensor Np states CT ct -> reads_as tensor Np states VC vc ->
  ac < N -> pc < Np -> qc < Nq ->
  exists col', CPVC_col N Nq Np CT VC P ac pc qc (repeat 0%R D) = Ok col' /\ length col' = D /\
    forall x, valid3 N Nq Np x -> nth (idx3 Nq Np x) col' 0%R =
      ctv ct (fun i => sum (fun aj => if connects tensor (nth ac states dummy_pw) (nth aj states dummy_pw)
                     then sum (fun pj => 2 * csc_elem P i (idx3 Nq Np (aj, qc, pj)) * vc ac aj pc pj) Np else 0)%R N) x.
Proof.
  intros HC HV Ha Hp Hq. unfold CPVC_col. fold D.
  destruct (PVC_col_ok VC vc ac pc qc (repeat 0%R D) HV Ha Hp Hq (repeat_length _ _)) as (pvc & Ep & Lp & Hpvc).
  rewrite Ep. cbn [obind].
  set (pv := fun i => sum (fun aj => if connects tensor (nth ac states dummy_pw) (nth aj states dummy_pw)
                     then sum (fun pj => 2 * csc_elem P i (idx3 Nq Np (aj, qc, pj)) * vc ac aj pc pj)%R Np else 0%R) N) in *.
  assert (Hpv : forall i, i < D -> nth i pvc 0%R = pv i) by (intros i Hi; rewrite Hpvc by exact Hi; rewrite zeros_nth; apply Rplus_0_l).
  match goal with |- context [ofold ?F (seq 0 N) ?c0] => 
    destruct (acc_loop D (idx3 Nq Np) (valid3 N Nq Np) F (fun ar x => if fst (fst x) =? ar then ctv ct pv x else 0%R) (seq 0 N) c0 (repeat_length _ _))
      as (c' & E & L' & H') end.
  - intros ar s Har Ls. apply in_seq in Har.
    match goal with |- context [ofold ?F (seq 0 N) s] =>
      destruct (acc_loop D (idx3 Nq Np) (valid3 N Nq Np) F
        (fun ai x => if fst (fst x) =? ar then
            (if connects tensor (nth ar states dummy_pw) (nth ai states dummy_pw)
             then sum (fun pi => ct ar ai (snd x) pi * pv (idx3 Nq Np (ai, snd (fst x), pi)))%R Np else 0%R) else 0%R) (seq 0 N) s Ls) as (c' & E & L' & H') end.
    + intros ai t Hai Lt. apply in_seq in Hai. destruct (HC ar ai ltac:(lia) ltac:(lia)) as (p & Ep' & Hn & Hy).
      change (length states) with N in Ep'. rewrite Ep'. cbn [obind].
      destruct (connects tensor (nth ar states dummy_pw) (nth ai states dummy_pw)) eqn:Ec.
      2:{ rewrite (Hn eq_refl). exists t. split; [ reflexivity | ]. split; [ exact Lt | ]. intros i _. destruct (_ =? _); lra. }
      destruct (Hy eq_refl) as [Hp0 Hrd]. destruct p as [p|]; [ | contradiction ]. clear Hn Hy.
      match goal with |- context [ofold ?F (seq 0 Nq) t] =>
        destruct (acc_loop D (idx3 Nq Np) (valid3 N Nq Np) F
          (fun qr x => if fst (fst x) =? ar then if snd (fst x) =? qr then
            sum (fun pi => ct ar ai (snd x) pi * pv (idx3 Nq Np (ai, qr, pi)))%R Np else 0%R else 0%R) (seq 0 Nq) t Lt) as (c' & E & L' & H') end.
      * intros qr t2 Hqr Lt2. apply in_seq in Hqr.
        match goal with |- context [ofold ?F (seq 0 Np) t2] =>
          destruct (acc_loop D (idx3 Nq Np) (valid3 N Nq Np) F
            (fun pi x => if fst (fst x) =? ar then if snd (fst x) =? qr then
              (ct ar ai (snd x) pi * pv (idx3 Nq Np (ai, qr, pi)))%R else 0%R else 0%R) (seq 0 Np) t2 Lt2) as (c' & E & L' & H') end.
        -- intros pi t3 Hpi Lt3. apply in_seq in Hpi.
           assert (Ei : ai * Nq * Np + (qr * Np + pi) = idx3 Nq Np (ai, qr, pi)) by (cbn; ring). rewrite Ei.
           assert (Hi : idx3 Nq Np (ai, qr, pi) < D) by (apply idx3_lt; cbn; lia).
           rewrite areadn by lia. cbn [obind]. unfold at_. rewrite Hpv by exact Hi.
           unfold Reqb. destruct (Req_EM_T (pv (idx3 Nq Np (ai, qr, pi))) 0) as [E0|_].
           { exists t3. split; [ reflexivity | ]. split; [ exact Lt3 | ]. intros x _. rewrite E0. repeat destruct (_ =? _); lra. }
           match goal with |- context [ofold ?F (seq 0 Np) t3] =>
             destruct (acc_loop D (idx3 Nq Np) (valid3 N Nq Np) F
               (fun pr x => if idx3 Nq Np x =? idx3 Nq Np (ar, qr, pr) then (pv (idx3 Nq Np (ai, qr, pi)) * ct ar ai pr pi)%R else 0%R)
               (seq 0 Np) t3 Lt3) as (c' & E & L' & H') end.
           ++ intros pr t4 Hpr Lt4. apply in_seq in Hpr. rewrite Hrd by lia. cbn [obind].
              assert (Er : ar * Nq * Np + qr * Np + pr = idx3 Nq Np (ar, qr, pr)) by (cbn; ring). rewrite Er.
              assert (Hr : idx3 Nq Np (ar, qr, pr) < D) by (apply idx3_lt; cbn; lia).
              destruct (add_at t4 D _ (pv (idx3 Nq Np (ai, qr, pi)) * ct ar ai pr pi)%R Lt4 Hr) as (s' & Es & Ls' & Hs').
              exists s'. split; [ exact Es | ]. split; [ exact Ls' | ]. intros x _. rewrite Hs'. reflexivity.
           ++ exists c'. split; [ exact E | ]. split; [ exact L' | ]. intros x Hx. rewrite H' by exact Hx. f_equal.
              rewrite fsum_seq0. destruct x as [[a q] pp]. pose proof Hx as (X1 & X2 & X3). cbn [fst snd].
              destruct (Nat.eqb_spec a ar) as [->|Hne].
              ** destruct (Nat.eqb_spec q qr) as [->|Hne].
                 --- rewrite (sum_ext _ (fun pr => if pr =? pp then (pv (idx3 Nq Np (ai, qr, pi)) * ct ar ai pr pi)%R else 0%R)).
                     +++ rewrite sum_delta by exact X3. lra.
                     +++ intros pr Hpr. destruct (Nat.eqb_spec pr pp) as [->|Hpp]; [ rewrite Nat.eqb_refl; reflexivity | ].
                         destruct (Nat.eqb_spec (idx3 Nq Np (ar, qr, pp)) (idx3 Nq Np (ar, qr, pr))) as [Ee|_]; [ | reflexivity ].
                         apply (idx3_inj N) in Ee; [ congruence | exact Hx | cbn; lia ].
                 --- apply sum_zero. intros pr Hpr.
                     destruct (Nat.eqb_spec (idx3 Nq Np (ar, q, pp)) (idx3 Nq Np (ar, qr, pr))) as [Ee|_]; [ | reflexivity ].
                     apply (idx3_inj N) in Ee; [ congruence | exact Hx | cbn; lia ].
              ** apply sum_zero. intros pr Hpr.
                 destruct (Nat.eqb_spec (idx3 Nq Np (a, q, pp)) (idx3 Nq Np (ar, qr, pr))) as [Ee|_]; [ | reflexivity ].
                 apply (idx3_inj N) in Ee; [ congruence | exact Hx | cbn; lia ].
        -- exists c'. split; [ exact E | ]. split; [ exact L' | ]. intros x Hx. rewrite H' by exact Hx. f_equal. rewrite fsum_seq0.
           destruct (_ =? ar); [ | apply sum_zero; reflexivity ]. destruct (_ =? qr); [ reflexivity | apply sum_zero; reflexivity ].
      * exists c'. split; [ exact E | ]. split; [ exact L' | ]. intros x Hx. rewrite H' by exact Hx. f_equal. rewrite fsum_seq0.
        destruct x as [[a q] pp]. pose proof Hx as (X1 & X2 & X3). cbn [fst snd].
        destruct (a =? ar); [ | apply sum_zero; reflexivity ].
        rewrite (sum_ext _ (fun qr => if qr =? q then sum (fun pi => ct ar ai pp pi * pv (idx3 Nq Np (ai, qr, pi)))%R Np else 0%R)).
        -- apply (sum_delta (fun qr => sum (fun pi => ct ar ai pp pi * pv (idx3 Nq Np (ai, qr, pi)))%R Np) Nq q X2).
        -- intros qr _. rewrite (Nat.eqb_sym q qr). reflexivity.
    + exists c'. split; [ exact E | ]. split; [ exact L' | ]. intros x Hx. rewrite H' by exact Hx. f_equal. rewrite fsum_seq0.
      destruct x as [[a q] pp]. cbn [fst snd ctv]. destruct (Nat.eqb_spec a ar) as [->|]; [ reflexivity | apply sum_zero; reflexivity ].
  - exists c'. split; [ exact E | ]. split; [ exact L' | ]. intros x Hx. rewrite H' by exact Hx. rewrite zeros_nth, fsum_seq0.
    destruct x as [[a q] pp]. pose proof Hx as (X1 & X2 & X3). cbn [fst].
    rewrite (sum_ext _ (fun ar => if ar =? a then ctv ct pv (a, q, pp) else 0%R)) by (intros ar _; rewrite (Nat.eqb_sym a ar); reflexivity).
    rewrite (sum_delta (fun ar => ctv ct pv (a, q, pp)) N a X1). lra.
Qed.

Definition pvc_val (vc : nat -> nat -> nat -> nat -> R) (ac qc pc i : nat) : R :=
  sum (fun aj => if connects tensor (nth ac states dummy_pw) (nth aj states dummy_pw)
                 then sum (fun pj => 2 * csc_elem P i (idx3 Nq Np (aj, qc, pj)) * vc ac aj pc pj)%R Np else 0%R) N.

Lemma row_element_ok CT ct pvc pv ar qr : reads_as tensor Np states CT ct -> length pvc = D ->
  (forall i, i < D -> nth i pvc 0%R = pv i) -> ar < N -> qr < Nq ->
  CPVC_row_element N Nq Np CT pvc ar qr = Ok (ctv ct pv (ar, qr, 0)).
Proof.
  intros HC Lp Hpv Ha Hq. unfold CPVC_row_element, ctv.
  assert (G : forall n, n <= N -> ofold (fun acc ai =>
      do p <- aread (k_ptr CT) (ar * N + ai);
      match p with
      | None => Ok acc
      | Some _ =>
          ofold (fun acc pi =>
              do e <- aread pvc (ai * Nq * Np + qr * Np + pi);
              do c <- kread CT p (0 * Np + pi);
              Ok (acc + c * e)%R) (seq 0 Np) acc
      end) (seq 0 n) 0%R = Ok (sum (fun ai => if connects tensor (nth ar states dummy_pw) (nth ai states dummy_pw)
                 then sum (fun pi => ct ar ai 0%nat pi * pv (idx3 Nq Np (ai, qr, pi)))%R Np else 0%R) n)).
  { induction n as [|n IH]; intros Hn; [ reflexivity | ]. rewrite seq_S, ofold_app, IH by lia. cbn [obind ofold plus].
    destruct (HC ar n Ha ltac:(lia)) as (p & Ep & Hno & Hy). change (length states) with N in Ep. rewrite Ep. cbn [obind].
    rewrite sum_S. destruct (connects tensor (nth ar states dummy_pw) (nth n states dummy_pw)).
    2:{ rewrite (Hno eq_refl). cbn [obind]. rewrite Rplus_0_r. reflexivity. }
    destruct (Hy eq_refl) as [Hp0 Hrd]. destruct p as [p|]; [ | contradiction ].
    set (acc0 := sum _ n). clearbody acc0.
    assert (G2 : forall m, m <= Np -> ofold (fun acc pi =>
              do e <- aread pvc (n * Nq * Np + qr * Np + pi);
              do c <- kread CT (Some p) (0 * Np + pi);
              Ok (acc + c * e)%R) (seq 0 m) acc0 = Ok (acc0 + sum (fun pi => ct ar n 0%nat pi * pv (idx3 Nq Np (n, qr, pi))) m)%R).
    { induction m as [|m IHm]; intros Hm; [ cbn; unfold sum; cbn; rewrite Rplus_0_r; reflexivity | ].
      rewrite seq_S, ofold_app, IHm by lia. cbn [obind ofold plus].
      assert (Ei : n * Nq * Np + qr * Np + m = idx3 Nq Np (n, qr, m)) by (cbn; ring). rewrite Ei.
      assert (Hi : idx3 Nq Np (n, qr, m) < D) by (apply idx3_lt; cbn; lia).
      rewrite areadn by lia. cbn [obind]. unfold at_. rewrite Hpv by exact Hi. rewrite Hrd by lia. cbn [obind].
      rewrite sum_S. f_equal. ring. }
    rewrite G2 by lia. reflexivity. }
  apply G. lia.
Qed.

Lemma rows_ok CT VC ct vc deut qcom rows : reads_as tensor Np states CT ct -> reads_as tensor Np states VC vc ->
  (forall d, In d deut -> d < N) -> (forall q, In q qcom -> q < Nq) -> length rows = length deut * length qcom * D ->
  exists rows', CPVC_rows N Nq Np CT VC P deut qcom rows = Ok rows' /\ length rows' = length rows /\
    forall i j x, i < length deut -> j < length qcom -> valid3 N Nq Np x ->
      nth ((i * length qcom + j) * D + idx3 Nq Np x) rows' 0%R =
        let '(ac, qc, pc) := x in ctv ct (pvc_val vc ac qc pc) (nth i deut 0, nth j qcom 0, 0).
Proof.
  intros HC HV Hd Hq L. unfold CPVC_rows. fold D.
  set (cells := combine (seq 0 (length deut)) deut). set (qs := combine (seq 0 (length qcom)) qcom).
  set (cols := flat_map (fun ac => flat_map (fun qc => map (fun pc => (ac, qc, pc)) (seq 0 Np)) (seq 0 Nq)) (seq 0 N)).
  set (X := flat_map (fun c : state3 => flat_map (fun id : nat * nat => map (fun jq : nat * nat => (c, id, jq)) qs) cells) cols).
  set (addr := fun x : state3 * (nat * nat) * (nat * nat) => let '(c, id, jq) := x in (fst id * length qcom + fst jq) * D + idx3 Nq Np c).
  set (val := fun x : state3 * (nat * nat) * (nat * nat) => let '((ac, qc, pc), id, jq) := x in ctv ct (pvc_val vc ac qc pc) (snd id, snd jq, 0)).
  assert (Hcells : forall i d, In (i, d) cells <-> nth_error deut i = Some d).
  { intros i d. unfold cells. rewrite in_combine_seq, Nat.sub_0_r. split; [ tauto | split; [ lia | assumption ] ]. }
  assert (Hqs : forall i d, In (i, d) qs <-> nth_error qcom i = Some d).
  { intros i d. unfold qs. rewrite in_combine_seq, Nat.sub_0_r. split; [ tauto | split; [ lia | assumption ] ]. }
  assert (Hcols : forall c, In c cols <-> valid3 N Nq Np c).
  { intros [[ac qc] pc]. unfold cols. rewrite in_flat_map. split.
    - intros (a & Ia & H). apply in_flat_map in H. destruct H as (q & Iq & H). apply in_map_iff in H. destruct H as (p & E & Ip).
      injection E as -> -> ->. apply in_seq in Ia, Iq, Ip. cbn. lia.
    - intros (H1 & H2 & H3). exists ac. split; [ apply in_seq; lia | ]. apply in_flat_map. exists qc. split; [ apply in_seq; lia | ].
      apply in_map_iff. exists pc. split; [ reflexivity | apply in_seq; lia ]. }
  assert (HX : forall c i d j q, In (c, (i, d), (j, q)) X <-> valid3 N Nq Np c /\ nth_error deut i = Some d /\ nth_error qcom j = Some q).
  { intros c i d j q. unfold X. rewrite in_flat_map. split.
    - intros (c' & Ic & H). apply in_flat_map in H. destruct H as (id & Iid & H). apply in_map_iff in H. destruct H as (jq & E & Ijq).
      injection E as -> -> ->. rewrite <- Hcells, <- Hqs, <- Hcols. auto.
    - rewrite <- Hcells, <- Hqs, <- Hcols. intros (H1 & H2 & H3). exists c. split; [ exact H1 | ]. apply in_flat_map.
      exists (i, d). split; [ exact H2 | ]. apply in_map_iff. exists (j, q). auto. }
  destruct (scatter addr val X rows) as (out & E & Lo & W & _).
  - intros [[c [i d]] [j q]] Hx. apply HX in Hx. destruct Hx as (Hc & Hi & Hj). unfold addr. cbn [fst]. rewrite L.
    assert (i < length deut) by (apply nth_error_Some; congruence). assert (j < length qcom) by (apply nth_error_Some; congruence).
    apply rm_lt; [ apply rm_lt; assumption | apply idx3_lt; exact Hc ].
  - intros [[c [i d]] [j q]] [[c' [i' d']] [j' q']] Hx Hy Ea. apply HX in Hx, Hy. destruct Hx as (Hc & Hi & Hj), Hy as (Hc' & Hi' & Hj').
    unfold addr in Ea. cbn [fst] in Ea. apply rm_inj in Ea; [ | apply idx3_lt; assumption.. ]. destruct Ea as [Ea Ec].
    apply (idx3_inj N) in Ec; [ | assumption.. ]. subst c'.
    assert (j < length qcom) by (apply nth_error_Some; congruence). assert (j' < length qcom) by (apply nth_error_Some; congruence).
    apply rm_inj in Ea; [ | assumption.. ]. destruct Ea as [-> ->]. rewrite Hi in Hi'. rewrite Hj in Hj'. injection Hi' as ->. injection Hj' as ->. reflexivity.
  - exists out. split; [ | split; [ exact Lo | ] ].
    + rewrite <- E. unfold X.
      set (F := fun (rows : list R) (c : state3) => let '(ac, qc, pc) := c in
         do pvc <- PVC_col N Nq Np VC P ac pc qc (repeat 0%R D);
         ofold (fun rows (id : nat * nat) => ofold (fun rows (jq : nat * nat) =>
            do x <- CPVC_row_element N Nq Np CT pvc (snd id) (snd jq);
            awrite rows ((fst id * length qcom + fst jq) * D + (ac * Nq * Np + qc * Np + pc)) x) qs rows) cells rows).
      transitivity (ofold F cols rows).
      * unfold cols. apply ofold_flat. intros ac r0 _. apply ofold_flat. intros qc r1 _. rewrite ofold_map. reflexivity.
      * apply ofold_flat. intros [[ac qc] pc] r0 Hc. apply Hcols in Hc. pose proof Hc as (H1 & H2 & H3). unfold F.
        destruct (PVC_col_ok VC vc ac pc qc (repeat 0%R D) HV H1 H3 H2 (repeat_length _ _)) as (pvc & Ep & Lp & Hpvc).
        rewrite Ep. cbn [obind]. apply ofold_flat. intros [i d] r1 Hid. rewrite ofold_map. apply ofold_ext. intros [j q] r2 Hjq. cbn [fst snd].
        apply Hcells, nth_error_In, Hd in Hid. apply Hqs, nth_error_In, Hq in Hjq.
        rewrite (row_element_ok CT ct pvc (pvc_val vc ac qc pc) d q HC Lp); [ | | exact Hid | exact Hjq ].
        -- cbn [obind]. unfold addr, val. cbn [fst snd]. f_equal. cbn. ring.
        -- intros k Hk. rewrite Hpvc by exact Hk. rewrite zeros_nth. apply Rplus_0_l.
    + intros i j [[ac qc] pc] Hi Hj Hx.
      specialize (W ((ac, qc, pc), (i, nth i deut 0), (j, nth j qcom 0))). unfold addr, val in W. cbn [fst snd] in W.
      apply nth_error_nth. apply W. apply HX. split; [ exact Hx | ]. split; apply nth_error_nth'; assumption.
Qed.
End Cols.

(* ---------- putting it together ---------- *)
Section Final.
Variables (tensor iso : bool) (Jm mx : Z) (key : Z * Z) (Np Nq : nat) (states : list pw) (P : csc) (V C : list R * list R).
Hypothesis Hst : forall s, In s states <-> (physical s /\ in_model_space Jm mx iso s) /\ chn_of s = key.
Hypothesis Hnd : NoDup states.
Hypothesis Hcfg : tensor = true \/ (tensor = false /\ iso = false /\ (Jm <= 1)%Z).
Let N := length states.
Let D := N * Nq * Np.
Notation C3 := (op3 tensor iso Np states C).
Notation V3 := (op3 tensor iso Np states V).

Lemma sum3_ext f g : (forall x, valid3 N Nq Np x -> f x = g x) -> sum3 N Nq Np f = sum3 N Nq Np g.
Proof. intros H. unfold sum3. apply sum_ext. intros a Ha. apply sum_ext. intros q Hq. apply sum_ext. intros p Hp. apply H. cbn. auto. Qed.

(* an operator diagonal in q *)
Lemma sum3_diag (f : nat -> nat -> R) q : q < Nq ->
  sum3 N Nq Np (fun x => let '(a, q', p) := x in if q' =? q then f a p else 0%R) = sum (fun a => sum (fun p => f a p) Np) N.
Proof.
  intros Hq. unfold sum3. apply sum_ext. intros a _.
  rewrite (sum_ext _ (fun q' => if q' =? q then sum (fun p => f a p) Np else 0%R)).
  - apply (sum_delta (fun _ => sum (fun p => f a p) Np)). exact Hq.
  - intros q' _. destruct (q' =? q); [ reflexivity | apply sum_zero; reflexivity ].
Qed.

Lemma VC3_eq aj qj pj ay qy py : aj < N -> qj < Nq -> pj < Np -> ay < N -> qy < Nq -> py < Np ->
  sum3 N Nq Np (fun k => V3 (aj, qj, pj) k * C3 k (ay, qy, py))%R =
  if qj =? qy then prod2 tensor iso Np states V C (nth aj states dummy_pw) (nth ay states dummy_pw) pj py else 0%R.
Proof.
  intros Ha Hq Hp Ha' Hq' Hp'.
  transitivity (sum3 N Nq Np (fun x => let '(a, q', p) := x in if q' =? qj then
     (if qj =? qy then if connects tensor (nth aj states dummy_pw) (nth a states dummy_pw) && connects tensor (nth a states dummy_pw) (nth ay states dummy_pw)
        then elem2 tensor iso Np V (nth aj states dummy_pw) (nth a states dummy_pw) pj p * elem2 tensor iso Np C (nth a states dummy_pw) (nth ay states dummy_pw) p py
        else 0 else 0)%R else 0%R)).
  - apply sum3_ext. intros [[a q] p] _. cbn [op3]. rewrite (Nat.eqb_sym qj q). destruct (Nat.eqb_spec q qj) as [->|]; cbn [andb]; [ | lra ].
    destruct (qj =? qy); cbn [andb]; [ | lra ].
    destruct (connects tensor (nth aj states dummy_pw) (nth a states dummy_pw)); cbn [andb]; [ | lra ].
    destruct (connects tensor (nth a states dummy_pw) (nth ay states dummy_pw)); lra.
  - rewrite (sum3_diag (fun a p => (if qj =? qy then if connects tensor (nth aj states dummy_pw) (nth a states dummy_pw) && connects tensor (nth a states dummy_pw) (nth ay states dummy_pw)
        then elem2 tensor iso Np V (nth aj states dummy_pw) (nth a states dummy_pw) pj p * elem2 tensor iso Np C (nth a states dummy_pw) (nth ay states dummy_pw) p py
        else 0 else 0)%R) qj Hq).
    destruct (qj =? qy); [ | apply sum_zero; intros a _; apply sum_zero; reflexivity ].
    unfold prod2. rewrite <- (sum_lsum _ states). apply sum_ext. intros a _.
    destruct (connects tensor (nth aj states dummy_pw) (nth a states dummy_pw) && connects tensor (nth a states dummy_pw) (nth ay states dummy_pw));
      [ reflexivity | apply sum_zero; reflexivity ].
Qed.

Lemma prod2_unconnected r c i j : connects tensor r c = false -> prod2 tensor iso Np states V C r c i j = 0%R.
Proof.
  intros H. unfold prod2. apply lsum_zero. intros s _. destruct (connects tensor r s) eqn:E1; [ | reflexivity ].
  destruct (connects tensor s c) eqn:E2; [ | reflexivity ]. exfalso.
  rewrite (connects_trans tensor iso Jm mx key states Hst Hcfg r s c E1 E2) in H. discriminate.
Qed.

Notation ct := (fun a b x y => elem2 tensor iso Np C (nth b states dummy_pw) (nth a states dummy_pw) y x).
Notation vc := (fun a b x y => prod2 tensor iso Np states V C (nth b states dummy_pw) (nth a states dummy_pw) y x).

Lemma pvc_sum3 ac qc pc i : ac < N -> qc < Nq -> pc < Np ->
  pvc_val tensor Np Nq states P vc ac qc pc i =
  sum3 N Nq Np (fun j => 2 * csc_elem P i (idx3 Nq Np j) * sum3 N Nq Np (fun k => V3 j k * C3 k (ac, qc, pc)))%R.
Proof.
  intros Ha Hq Hp. unfold pvc_val. symmetry.
  transitivity (sum3 N Nq Np (fun x => let '(a, q', p) := x in if q' =? qc then
     (2 * csc_elem P i (idx3 Nq Np (a, qc, p)) * prod2 tensor iso Np states V C (nth a states dummy_pw) (nth ac states dummy_pw) p pc)%R else 0%R)).
  - apply sum3_ext. intros [[a q] p] (X1 & X2 & X3). rewrite VC3_eq by assumption.
    destruct (Nat.eqb_spec q qc) as [->|]; [ reflexivity | lra ].
  - rewrite (sum3_diag (fun a p => (2 * csc_elem P i (idx3 Nq Np (a, qc, p)) * prod2 tensor iso Np states V C (nth a states dummy_pw) (nth ac states dummy_pw) p pc)%R) qc Hq).
    apply sum_ext. intros a Ha'. rewrite (connects_sym tensor).
    destruct (connects tensor (nth a states dummy_pw) (nth ac states dummy_pw)) eqn:E; [ reflexivity | ].
    apply sum_zero. intros p _. rewrite prod2_unconnected by exact E. lra.
Qed.

Lemma ctv_kernel ac qc pc x : valid3 N Nq Np (ac, qc, pc) -> valid3 N Nq Np x ->
  ctv tensor Np Nq states ct (pvc_val tensor Np Nq states P vc ac qc pc) x = kernel N Nq Np C3 V3 P x (ac, qc, pc).
Proof.
  intros (H1 & H2 & H3) Hx. destruct x as [[ar qr] pr]. destruct Hx as (X1 & X2 & X3). unfold ctv, kernel. symmetry.
  transitivity (sum3 N Nq Np (fun y => let '(a, q', p) := y in if q' =? qr then
    (if connects tensor (nth ar states dummy_pw) (nth a states dummy_pw)
     then elem2 tensor iso Np C (nth a states dummy_pw) (nth ar states dummy_pw) p pr * pvc_val tensor Np Nq states P vc ac qc pc (idx3 Nq Np (a, qr, p)) else 0)%R else 0%R)).
  - apply sum3_ext. intros [[a q] p] (Y1 & Y2 & Y3).
    transitivity (C3 (a, q, p) (ar, qr, pr) * pvc_val tensor Np Nq states P vc ac qc pc (idx3 Nq Np (a, q, p)))%R.
    + rewrite pvc_sum3 by assumption. unfold sum3. rewrite <- sum_scal. apply sum_ext. intros a' _. rewrite <- sum_scal. apply sum_ext. intros q' _.
      rewrite <- sum_scal. apply sum_ext. intros p' _. ring.
    + cbn [op3]. destruct (Nat.eqb_spec q qr) as [->|]; cbn [andb]; [ | lra ]. rewrite (connects_sym tensor).
      destruct (connects tensor (nth ar states dummy_pw) (nth a states dummy_pw)); [ reflexivity | lra ].
  - rewrite (sum3_diag (fun a p => (if connects tensor (nth ar states dummy_pw) (nth a states dummy_pw)
     then elem2 tensor iso Np C (nth a states dummy_pw) (nth ar states dummy_pw) p pr * pvc_val tensor Np Nq states P vc ac qc pc (idx3 Nq Np (a, qr, p)) else 0)%R) qr X2).
    apply sum_ext. intros a Ha'. destruct (connects tensor (nth ar states dummy_pw) (nth a states dummy_pw)); [ reflexivity | apply sum_zero; reflexivity ].
Qed.
End Final.
