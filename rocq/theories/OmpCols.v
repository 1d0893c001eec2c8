From Coq Require Import Reals Permutation.
From Verif Require Import Common ArrayLib PWModel SwpModel KernelModel FaddeevModel OmpModel OmpProofs OmpRegions.
Open Scope nat_scope.
Open Scope list_scope.

Lemma nth_error_firstn_lt {A} (l : list A) n k : k < n -> nth_error (firstn n l) k = nth_error l k.
Proof. revert l k. induction n as [|n IH]; intros [|x l] [|k] H; try lia; cbn; try reflexivity. apply IH. lia. Qed.
Lemma nth_error_skipn_add {A} (l : list A) n k : nth_error (skipn n l) k = nth_error l (n + k).
Proof. revert l. induction n as [|n IH]; intros l; [ reflexivity | ]. destruct l; cbn; [ destruct k; reflexivity | apply IH ]. Qed.
Lemma aslice_inv {A} (a z : list A) off n : aslice a off n = Ok z -> length z = n /\ off + n <= length a /\ forall k, k < n -> nth_error z k = nth_error a (off + k).
Proof.
  unfold aslice. destruct (Nat.leb_spec (off + n) (length a)); [ | discriminate ]. intros E. injection E as <-.
  split; [ rewrite firstn_length, skipn_length; lia | ]. split; [ assumption | ]. intros k Hk.
  rewrite nth_error_firstn_lt by exact Hk. apply nth_error_skipn_add.
Qed.
Lemma ablit_inv {A} (a a' l : list A) off : ablit a off l = Ok a' ->
  (forall k, k < length l -> nth_error a' (off + k) = nth_error l k) /\ (forall k, k < off \/ off + length l <= k -> nth_error a' k = nth_error a k).
Proof.
  unfold ablit. destruct (Nat.leb_spec (off + length l) (length a)); [ | discriminate ]. intros E. injection E as <-.
  assert (F : length (firstn off a) = off) by (rewrite firstn_length; lia). split.
  - intros k Hk. rewrite nth_error_app2 by lia. rewrite F. replace (off + k - off) with k by lia. apply nth_error_app1, Hk.
  - intros k [Hk|Hk].
    + rewrite nth_error_app1 by lia. apply nth_error_firstn_lt, Hk.
    + rewrite nth_error_app2 by lia. rewrite F. rewrite nth_error_app2 by lia. rewrite nth_error_skipn_add. f_equal. lia.
Qed.
Lemma CPVC_col_len N Nq Np CT VC P ac pc qc col col' : CPVC_col N Nq Np CT VC P ac pc qc col = Ok col' -> length col' = length col.
Proof.
  unfold CPVC_col. destruct (PVC_col _ _ _ _ _ _ _ _ _) as [pvc| | |]; try discriminate. cbn [obind].
  apply ofold_len. intros s ar s' _. apply ofold_len. intros s1 ai s1' _ E.
  destruct (aread (k_ptr CT) (ar * N + ai)) as [[q|]| | |]; try discriminate; cbn [obind] in E; [ | injection E as <-; reflexivity ].
  revert E. apply ofold_len. intros s2 qr s2' _. apply ofold_len. intros s3 pi s3' _ E.
  destruct (aread pvc _) as [e| | |]; try discriminate. cbn [obind] in E. destruct (Reqb e 0); [ injection E as <-; reflexivity | ].
  revert E. apply ofold_len. intros s4 pr s4' _ E. destruct (kread CT (Some q) _) as [c| | |]; try discriminate. cbn [obind] in E.
  destruct (aread s4 _) as [old| | |]; try discriminate. cbn [obind] in E. exact (awrite_len _ _ _ _ E).
Qed.

Notation cmem := (memory (nat * nat) cols_val).
(* a part of CPVC_cols_array *)
Definition part_is (base n : nat) (m : cmem) (col : list R) : Prop := length col = n /\ forall k, k < n -> m (0, base + k) = option_map inl (nth_error col k).
Lemma sim_col_add base n k x : sim peqb (part_is base n) (fun _ : unit => True) (col_add (base + k) x (ret tt))
  (fun col => do old <- aread col k; awrite col k (old + x)%R).
Proof.
  intros m a a' [La Hv] Hg. cbn in Hg. destruct (aread a k) as [old| | |] eqn:Ea; try discriminate. cbn [obind] in Hg.
  assert (En : nth_error a k = Some old) by (unfold aread in Ea; destruct (nth_error a k); congruence).
  destruct (awrite_inv a a' k _ Hg) as (Hk & L & W & O).
  assert (Em : m (0, base + k) = Some (inl old)) by (rewrite Hv, En by lia; reflexivity).
  exists tt, (update peqb m (0, base + k) (inl (old + x)%R)). unfold col_add. cbn. rewrite Em. cbn. rewrite Em.
  split; [ reflexivity | ]. split; [ exact I | ]. split; [ lia | ]. intros j Hj. destruct (Nat.eq_dec j k) as [->|Hn].
  - rewrite W. exact (update_same peqb peqb_spec m _ _).
  - rewrite (O j Hn). rewrite (update_other peqb peqb_spec) by (intros C; injection C as C; lia). apply Hv, Hj.
Qed.
Section Col.
Variables (N Nq Np : nat) (CT VC : kop) (P : csc).
Notation D := (N * Nq * Np).
Lemma col_sim ac pc qc base : sim peqb (part_is base D) (fun _ : unit => True) (col_prog N Nq Np CT VC P ac pc qc base)
  (CPVC_col N Nq Np CT VC P ac pc qc).
Proof.
  unfold col_prog, CPVC_col. apply sim_done. intros pvc _. apply sim_fold; [ | exact I ]. intros [] ar _ _. apply sim_fold; [ | exact I ]. intros [] ai _ _.
  apply sim_done. intros p _. destruct p as [q|]; [ | apply sim_ret, I ].
  apply sim_fold; [ | exact I ]. intros [] qr _ _. apply sim_fold; [ | exact I ]. intros [] pi _ _.
  apply sim_done. intros e _. destruct (Reqb e 0); [ apply sim_ret, I | ].
  apply sim_fold; [ | exact I ]. intros [] pr _ _. apply sim_done. intros c _. apply sim_col_add.
Qed.
Definition col_W (base : nat) : list (nat * nat) := map (fun k => (0, base + k)) (seq 0 D).
Lemma in_col_W base l : In l (col_W base) <-> exists k, k < D /\ l = (0, base + k).
Proof.
  unfold col_W. rewrite in_map_iff. split; [ intros (k & <- & H); apply in_seq in H; exists k; split; [ lia | reflexivity ] | ].
  intros (k & H & ->). exists k. rewrite in_seq. split; [ reflexivity | lia ].
Qed.
Lemma col_touch ac pc qc base : touches (fun l => In l (col_W base)) (fun _ => False) (col_prog N Nq Np CT VC P ac pc qc base).
Proof.
  unfold col_prog. apply touches_pure. intros pvc. apply touches_fold. intros [] ar Har. apply touches_fold. intros [] ai _.
  apply touches_pure. intros p. destruct p as [q|]; [ | exact I ].
  apply touches_fold. intros [] qr Hqr. apply touches_fold. intros [] pi _. apply touches_pure. intros e. destruct (Reqb e 0); [ exact I | ].
  apply touches_fold. intros [] pr Hpr. apply touches_pure. intros c. rewrite in_seq in *.
  assert (Hin : In (0, base + (ar * Nq * Np + qr * Np + pr)) (col_W base)).
  { apply in_col_W. exists (ar * Nq * Np + qr * Np + pr). split; [ | reflexivity ].
    replace (ar * Nq * Np + qr * Np + pr) with ((ar * Nq + qr) * Np + pr) by ring. apply rm_lt; [ apply rm_lt; lia | lia ]. }
  unfold col_add. cbn [touches]. left. split; [ exact Hin | ]. intros [o|n]; cbn [touches]; [ split; [ exact Hin | exact I ] | exact I ].
Qed.
End Col.

Section Region.
Variable s : FaddeevModel.fsys.
Variables st : nat.
Notation D := (s_D s).
Definition seq_step (buf : list R) (idx : nat) : outcome (list R) :=
  do z <- aslice buf ((idx - st) * D) D; do c <- kernel_col s idx z; ablit buf ((idx - st) * D) c.
Definition W (idx : nat) : list (nat * nat) := col_W (s_N s) (s_Nq s) (s_Np s) ((idx - st) * D).
Definition colp (idx : nat) := col_prog (s_N s) (s_Nq s) (s_Np s) (s_CT s) (s_VC s) (s_P s)
    (idx / (s_Np s * s_Nq s)) (idx mod s_Np s) ((idx mod (s_Np s * s_Nq s)) / s_Np s) ((idx - st) * D).
Definition arr0 (m : cmem) (a : list R) : Prop := forall k, m (0, k) = option_map inl (nth_error a k).

Lemma colp_touch idx : touches (fun l => In l (W idx)) (fun _ => False) (colp idx).
Proof. apply col_touch. Qed.
Lemma body_touch t u idx : touches (fun l => In l (W idx) \/ l = (1, t)) (fun _ => False) (cols_body s st t u idx).
Proof.
  unfold cols_body. apply touches_bind.
  - apply touches_mono with (F := fun l => In l (W idx)); [ tauto | apply colp_touch ].
  - intros []. cbn [touches]. left. split; [ right; reflexivity | ]. intros v. split; [ right; reflexivity | exact I ].
Qed.
Lemma W_disj i j l : st <= i -> st <= j -> i <> j -> In l (W i) -> ~ In l (W j).
Proof.
  intros Hi Hj Hn H H'. apply in_col_W in H, H'. destruct H as (k & Hk & E), H' as (k' & Hk' & E'). rewrite E in E'. injection E' as E'.
  apply rm_inj in E'; [ lia | exact Hk | exact Hk' ].
Qed.
Lemma iter_run t u idx m : same_alloc m (cols_mem [] (repeat 0 100)) \/ (exists v, m (1, t) = Some v) -> forall m1 v, run peqb (colp idx) m = (Ok tt, m1) -> m (1, t) = Some v ->
  exists m2, run peqb (cols_body s st t u idx) m = (Ok tt, m2) /\ (forall k, m2 (0, k) = m1 (0, k)) /\ same_alloc m m2.
Proof.
  intros _ m1 v E Hv.
  assert (Fr : m1 (1, t) = Some v).
  { rewrite <- Hv. replace m1 with (snd (run peqb (colp idx) m)) by (rewrite E; reflexivity).
    apply (run_frame peqb peqb_spec _ _ (colp idx) m (1, t) (colp_touch idx)). intros H. apply in_col_W in H. destruct H as (k & _ & H). discriminate. }
  exists (update peqb m1 (1, t) (inr (match v with inr n => n | inl _ => 0 end + 0))).
  unfold cols_body. fold (colp idx). rewrite (run_bind_ok peqb _ _ _ _ _ E). cbn [run]. rewrite Fr. cbn [run]. try rewrite Fr.
  split; [ reflexivity | ]. split.
  - intros k. apply (update_other peqb peqb_spec). discriminate.
  - apply same_alloc_trans with (m' := m1).
    + replace m1 with (snd (run peqb (colp idx) m)) by (rewrite E; reflexivity). exact (run_alloc peqb peqb_spec (colp idx) m).
    + exact (alloc_update peqb peqb_spec m1 _ _ v Fr).
Qed.
Lemma iter_inv t u idx m m2 r : run peqb (cols_body s st t u idx) m = (Ok r, m2) ->
  exists m1, run peqb (colp idx) m = (Ok tt, m1) /\ (forall k, m2 (0, k) = m1 (0, k)).
Proof.
  unfold cols_body. fold (colp idx). rewrite run_bind. destruct (run peqb (colp idx) m) as [[[]| | |] m1]; try discriminate.
  cbn [run]. destruct (m1 (1, t)) as [v|] eqn:Ev; [ | discriminate ]. cbn [run]. try rewrite Ev. intros E. assert (E2 : m2 = update peqb m1 (1, t) (inr (match v with inr n => n | inl _ => 0 end + 0))) by (cbn in E; congruence).
  exists m1. split; [ reflexivity | ]. intros k. rewrite E2. apply (update_other peqb peqb_spec). discriminate.
Qed.
(* one iteration acts like the sequential step *)
Lemma iter_sim t u idx m a a' v : arr0 m a -> m (1, t) = Some v -> seq_step a idx = Ok a' ->
  exists m2, run peqb (cols_body s st t u idx) m = (Ok tt, m2) /\ arr0 m2 a' /\ same_alloc m m2.
Proof.
  intros Ha Hv E. unfold seq_step in E. destruct (aslice a ((idx - st) * D) D) as [z| | |] eqn:Ez; try discriminate. cbn [obind] in E.
  destruct (kernel_col s idx z) as [c| | |] eqn:Ec; try discriminate. cbn [obind] in E.
  destruct (aslice_inv _ _ _ _ Ez) as (Lz & Hz & Gz). assert (Lc : length c = D) by (apply CPVC_col_len in Ec; congruence).
  destruct (ablit_inv _ _ _ _ E) as [B1 B2]. rewrite Lc in B1, B2.
  destruct (col_sim (s_N s) (s_Nq s) (s_Np s) (s_CT s) (s_VC s) (s_P s) (idx / (s_Np s * s_Nq s)) (idx mod s_Np s) ((idx mod (s_Np s * s_Nq s)) / s_Np s) ((idx - st) * D) m z c) as ([] & m1 & E1 & _ & Lc' & V1).
  - split; [ exact Lz | ]. intros k Hk. rewrite (Ha ((idx - st) * D + k)), (Gz k Hk). reflexivity.
  - exact Ec.
  - destruct (iter_run t u idx m (or_intror (ex_intro _ v Hv)) m1 v E1 Hv) as (m2 & E2 & H2 & A2).
    exists m2. split; [ exact E2 | ]. split; [ | exact A2 ]. intros k. rewrite H2.
    destruct (Nat.lt_ge_cases k ((idx - st) * D)) as [Hlt|Hge]; [ | destruct (Nat.lt_ge_cases k ((idx - st) * D + D)) as [Hin|Hout] ].
    + rewrite (B2 k (or_introl Hlt)), <- (Ha k). replace m1 with (snd (run peqb (colp idx) m)) by (unfold colp; rewrite E1; reflexivity).
      apply (run_frame peqb peqb_spec _ _ (colp idx) m _ (colp_touch idx)). intros H. apply in_col_W in H. destruct H as (k' & _ & H). injection H as H. lia.
    + replace k with ((idx - st) * D + (k - (idx - st) * D)) by lia. rewrite (V1 (k - (idx - st) * D)), (B1 (k - (idx - st) * D)) by (fold D; lia). reflexivity.
    + rewrite (B2 k (or_intror Hout)), <- (Ha k). replace m1 with (snd (run peqb (colp idx) m)) by (unfold colp; rewrite E1; reflexivity).
      apply (run_frame peqb peqb_spec _ _ (colp idx) m _ (colp_touch idx)). intros H. apply in_col_W in H. destruct H as (k' & Hk' & H). injection H as H.
      change (s_N s * s_Nq s * s_Np s) with D in Hk'. lia.
Qed.
Lemma loop_sim t li : forall u m a a', arr0 m a -> m (1, t) <> None -> ofold seq_step li a = Ok a' ->
  exists m2, run peqb (afold (cols_body s st t) li u) m = (Ok tt, m2) /\ arr0 m2 a'.
Proof.
  induction li as [|i li IH]; intros u m a a' Ha Hv E; cbn [ofold afold] in *.
  - injection E as <-. destruct u. exists m. split; [ reflexivity | exact Ha ].
  - destruct (seq_step a i) as [a1| | |] eqn:E1; try discriminate. cbn [obind] in E. destruct (m (1, t)) as [v|] eqn:Ev; [ | contradiction ].
    destruct (iter_sim t u i m a a1 v Ha Ev E1) as (m1 & R1 & A1 & S1). rewrite (run_bind_ok peqb _ _ _ _ _ R1).
    apply (IH tt m1 a1 a' A1); [ | exact E ]. intros C. apply S1 in C. congruence.
Qed.

Theorem cols_region n cols cols' counters assign sched : length counters = 100 ->
  ofold seq_step (seq st n) cols = Ok cols' ->
  Permutation (concat assign) (seq st n) -> length assign <= 100 ->
  let threads := omp_for (cols_body s st) (fun _ => tt) assign in
  let st := parallel peqb threads (cols_mem cols counters) sched in
  ~ failed st /\ (forall l, ~ race_on (elog st) l) /\
  (finished st -> forall k, shared st (0, k) = option_map inl (nth_error cols' k)) /\
  (exists more, finished (parallel peqb threads (cols_mem cols counters) (sched ++ more))).
Proof.
  intros HC E Hp HT. cbv zeta.
  assert (Hal : forall t, t < 100 -> cols_mem cols counters (1, t) <> None).
  { intros t Ht. cbn. assert (H : nth_error counters t <> None) by (apply nth_error_Some; lia). destruct (nth_error counters t); [ discriminate | contradiction ]. }
  destruct (loop_sim 0 (seq st n) tt (cols_mem cols counters) cols cols' (fun k => eq_refl) (Hal 0 (Nat.lt_0_succ _)) E) as (mseq & Es & As).
  destruct (omp_for_seq peqb peqb_spec (cols_body s st) (fun i l => In l (W i)) (fun t l => l = (1, t)) (fun _ => False) (fun _ => True)
     (seq st n) (cols_mem cols counters) (seq_NoDup _ _)) with (s0 := tt) (ok := fun t => t < 100) (assign := assign) (init := fun _ : nat => tt)
     (r := tt) (mseq := mseq) (sched := sched) as (H1 & H2 & H3 & H4).
  - intros i j l Hi Hj. rewrite in_seq in *. apply W_disj; lia.
  - intros t t' l Hn -> C. injection C as C. contradiction.
  - intros t i l _ -> C. apply in_col_W in C. destruct C as (k & _ & C). discriminate.
  - intros t u i _. apply body_touch.
  - exact I.
  - intros t t' u u' i m m' r m1 Hi Ht Ht' _ _ Ag A A' R1.
    destruct (iter_inv t u i m m1 r R1) as (m2 & R2 & G2).
    destruct (run_agree peqb peqb_spec _ _ (colp i) m m' (colp_touch i) Ag (same_alloc_trans _ _ _ A (same_alloc_sym _ _ A'))) as [F1 F2].
    rewrite R2 in F1, F2. destruct (run peqb (colp i) m') as [o m3] eqn:R3. cbn [fst snd] in *. subst o.
    destruct (m' (1, t')) as [v'|] eqn:Ev; [ | exfalso; apply A' in Ev; exact (Hal t' Ht' Ev) ].
    destruct (iter_run t' u' i m' (or_intror (ex_intro _ v' Ev)) m3 v' R3 Ev) as (m4 & R4 & G4 & _).
    exists tt, m4. split; [ exact R4 | ]. split; [ exact I | ]. intros l Hl. assert (Hl' := Hl). apply in_col_W in Hl. destruct Hl as (k & _ & ->).
    rewrite G2, G4. apply F2, Hl'.
  - cbn; lia.
  - intros l. assert (Ld := L_dec peqb peqb_spec). clear -Ld. induction (seq st n) as [|i li IH]; [ right; intros i [] | ].
    destruct (in_dec Ld l (W i)) as [H|H]; [ left; exists i; split; [ left; reflexivity | exact H ] | ].
    destruct IH as [(j & Hj & Hl)|IH]; [ left; exists j; split; [ right; exact Hj | exact Hl ] | right ].
    intros j [<-|Hj]; [ exact H | exact (IH j Hj) ].
  - exact Hp.
  - intros t. exact I.
  - intros t Ht. lia.
  - exact Es.
  - split; [ exact H1 | ]. split; [ exact H2 | ]. split; [ | exact H4 ]. intros Fin k. rewrite <- (As k). apply H3; [ exact Fin | ]. intros t C. discriminate.
Qed.

(* thread 100 and above have no counter *)
Lemma body_ub t u idx m r m2 : m (1, t) = None -> run peqb (cols_body s st t u idx) m <> (Ok r, m2).
Proof.
  intros Hn E. unfold cols_body in E. fold (colp idx) in E. rewrite run_bind in E.
  destruct (run peqb (colp idx) m) as [[[]| | |] m1] eqn:R1; try discriminate. cbn [run] in E.
  assert (A := run_alloc peqb peqb_spec (colp idx) m). rewrite R1 in A. cbn [snd] in A. apply A in Hn. rewrite Hn in E. discriminate.
Qed.

Lemma fold_ub t li u m r m2 : m (1, t) = None -> li <> [] -> run peqb (afold (cols_body s st t) li u) m <> (Ok r, m2).
Proof.
  intros Hn Hl. destruct li as [|i li]; [ contradiction | ]. cbn [afold]. rewrite run_bind. intros E.
  destruct (run peqb (cols_body s st t u i) m) as [[r1| | |] m1] eqn:E1; try discriminate. exact (body_ub t u i m r1 m1 Hn E1).
Qed.
Theorem too_many_threads n cols counters assign t0 : length counters = 100 -> Permutation (concat assign) (seq st n) ->
  100 <= t0 -> nth t0 assign [] <> [] ->
  let run_of sched := parallel peqb (omp_for (cols_body s st) (fun _ => tt) assign) (cols_mem cols counters) sched in
  (forall sched, ~ finished (run_of sched)) /\ (exists sched, failed (run_of sched)).
Proof.
  intros HC Hp Ht Hne. cbv zeta.
  set (ps := omp_for (cols_body s st) (fun _ => tt) assign). set (m0 := cols_mem cols counters).
  assert (Hn0 : m0 (1, t0) = None) by (cbn; rewrite (proj2 (nth_error_None _ _)) by lia; reflexivity).
  assert (Lt : t0 < length assign) by (destruct (Nat.lt_ge_cases t0 (length assign)); [ assumption | rewrite nth_overflow in Hne by assumption; contradiction ]).
  assert (Nt : nth_error assign t0 = Some (nth t0 assign [])) by (apply nth_error_nth', Lt).
  assert (Ep : nth_error ps t0 = Some (afold (cols_body s st t0) (nth t0 assign []) tt)).
  { unfold ps. rewrite omp_nth, Nt. reflexivity. }
  assert (Solo : forall sched o, nth_error (threads (parallel peqb ps m0 sched)) t0 = Some (Done o) -> forall a, o <> Ok a).
  { intros sched o Ho a ->.
    destruct (interleave_solo peqb peqb_spec (foot (fun i l => In l (W i)) (fun t l => l = (1, t)) assign) (fun _ => False) sched ps m0 []) as (I1 & _).
    - intros i p. unfold ps. apply (omp_touch (cols_body s st)) with (all := seq st n); [ intros t u x _; apply body_touch | exact Hp ].
    - unfold ps. rewrite (omp_length (cols_body s st) assign (fun _ => tt)). apply (foot_disj (fun i l => In l (W i)) _ (seq st n) (seq_NoDup _ _)).
      + intros i j l Hi Hj. rewrite in_seq in *. apply W_disj; lia.
      + intros t t' l Hn -> C. injection C as C. contradiction.
      + intros t i l _ -> C. apply in_col_W in C. destruct C as (k & _ & C). discriminate.
      + exact Hp.
    - destruct (I1 t0 _ Ep) as (k & G1 & _). unfold parallel in Ho. rewrite G1 in Ho. injection Ho as Ho.
      assert (R := run_steps peqb k (afold (cols_body s st t0) (nth t0 assign []) tt) m0). rewrite Ho in R. cbn in R.
      symmetry in R. exact (fold_ub t0 _ tt m0 a _ Hn0 Hne R). }
  assert (Len : forall sched, t0 < length (threads (parallel peqb ps m0 sched))).
  { intros sched. unfold parallel. rewrite parallel_length. unfold ps. cbn [threads]. rewrite (omp_length (cols_body s st) assign (fun _ => tt)). exact Lt. }
  split.
  - intros sched Fin. assert (L := Len sched). apply nth_error_Some in L. destruct (nth_error (threads (parallel peqb ps m0 sched)) t0) as [p|] eqn:E; [ | contradiction ].
    destruct (Fin t0 p E) as [a ->]. exact (Solo sched _ E a eq_refl).
  - destruct (all_end peqb (length assign) (mkst ps m0 [])) as [sched Hs]. exists sched.
    assert (L := Len sched). apply nth_error_Some in L. destruct (nth_error (threads (parallel peqb ps m0 sched)) t0) as [p|] eqn:E; [ | contradiction ].
    destruct (Hs t0 p Lt E) as [o ->]. exists t0, o. split; [ exact E | exact (Solo sched o E) ].
Qed.
End Region.
