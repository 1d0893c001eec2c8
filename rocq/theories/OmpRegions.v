From Coq Require Import Reals Permutation.
From Verif Require Import Common ArrayLib PWModel SwpModel KernelModel FaddeevModel GeoModel GeoProofs GridModel PermModel PioModel OmpModel OmpProofs.
Open Scope nat_scope.
Open Scope list_scope.

Lemma eqb_spec_nat : forall a b : nat, reflect (a = b) (a =? b).
Proof. exact Nat.eqb_spec. Qed.
Definition peqb (a b : nat * nat) : bool := (fst a =? fst b) && (snd a =? snd b).
Lemma peqb_spec : forall a b, reflect (a = b) (peqb a b).
Proof.
  intros [a b] [c d]. unfold peqb. cbn. destruct (Nat.eqb_spec a c), (Nat.eqb_spec b d); cbn; constructor; congruence.
Qed.

(* footprints given by lists of cells *)
Section Lists.
Context {L V S X : Type}.
Variable leqb : L -> L -> bool.
Hypothesis leqb_spec : forall a b, reflect (a = b) (leqb a b).
Variable body : nat -> S -> X -> acc L V S.
Variable W : X -> list L.
Variable Q : S -> Prop.
Variable all : list X.
Variable m0 : memory L V.
Hypothesis all_nd : NoDup all.
Hypothesis W_disj : forall i j l, In i all -> In j all -> i <> j -> In l (W i) -> ~ In l (W j).
Hypothesis body_touch : forall t s i, In i all -> touches (fun l => In l (W i)) (fun _ => False) (body t s i).
Variable s0 : S.
Hypothesis Q0 : Q s0.
Hypothesis body_same : forall t t' s s' i m r m1, In i all -> Q s -> Q s' -> run leqb (body t s i) m = (Ok r, m1) ->
  exists r', run leqb (body t' s' i) m = (Ok r', m1) /\ Q r'.
Variable assign : list (list X).
Hypothesis Hperm : Permutation (concat assign) all.
Variable init : nat -> S.
Hypothesis Qinit : forall t, Q (init t).

Lemma L_dec : forall a b : L, {a = b} + {a <> b}.
Proof. intros a b. destruct (leqb_spec a b); [ left | right ]; assumption. Qed.
Lemma independent_loop r mseq sched : run leqb (afold (body 0) all s0) m0 = (Ok r, mseq) ->
  let st := parallel leqb (omp_for body init assign) m0 sched in
  ~ failed st /\ (forall l, ~ race_on (elog st) l) /\
  (finished st -> forall l, shared st l = mseq l) /\
  (exists more, finished (parallel leqb (omp_for body init assign) m0 (sched ++ more))).
Proof.
  intros E.
  destruct (omp_for_seq leqb leqb_spec body (fun i l => In l (W i)) (fun _ _ => False) (fun _ => False) Q all m0 all_nd W_disj) with
    (s0 := s0) (ok := fun _ : nat => True) (assign := assign) (init := init) (r := r) (mseq := mseq) (sched := sched) as (H1 & H2 & H3 & H4).
  - intros t t' l _ [].
  - intros t i l _ [].
  - intros t s i Hi. apply touches_mono with (F := fun l => In l (W i)); [ tauto | apply body_touch, Hi ].
  - exact Q0.
  - intros t t' s s' i m m' r1 m1 Hi _ _ Hs Hs' Ag A A' R1.
    destruct (body_same t t' s s' i m r1 m1 Hi Hs Hs' R1) as (r' & R' & Q').
    assert (Al : same_alloc m m') by (exact (same_alloc_trans _ _ _ A (same_alloc_sym _ _ A'))).
    destruct (run_agree leqb leqb_spec _ _ (body t' s' i) m m' (body_touch t' s' i Hi) Ag Al) as [F1 F2].
    rewrite R' in F1, F2. cbn [fst snd] in F1, F2. destruct (run leqb (body t' s' i) m') as [o m2] eqn:E2. cbn [fst snd] in *. subst o.
    exists r', m2. split; [ reflexivity | ]. split; [ exact Q' | exact F2 ].
  - exact I.
  - intros l. clear -leqb_spec. induction all as [|i li IH]; [ right; intros i [] | ].
    destruct (in_dec L_dec l (W i)) as [H|H]; [ left; exists i; split; [ left; reflexivity | exact H ] | ].
    destruct IH as [(j & Hj & Hl)|IH]; [ left; exists j; split; [ right; exact Hj | exact Hl ] | right ].
    intros j [<-|Hj]; [ exact H | exact (IH j Hj) ].
  - exact Hperm.
  - exact Qinit.
  - intros t _. exact I.
  - exact E.
  - cbv zeta. split; [ exact H1 | ]. split; [ exact H2 | ]. split; [ | exact H4 ]. intros Fin l. apply H3; [ exact Fin | intros t [] ].
Qed.
End Lists.

(* one array *)
Definition arr {V} (m : memory nat V) (a : list V) : Prop := forall k, m k = nth_error a k.
Lemma awrite_nth {V} (a a' : list V) i v : awrite a i v = Ok a' ->
  i < length a /\ nth_error a' i = Some v /\ forall j, j <> i -> nth_error a' j = nth_error a j.
Proof.
  intros H. destruct (awrite_inv a a' i v H) as (Hi & _).
  destruct (awrite_ok a i v Hi) as (a2 & E & _ & E1 & E2). rewrite E in H. injection H as <-. auto.
Qed.
Lemma sim_wr {V} i (v : V) : sim Nat.eqb arr (fun _ : unit => True) (Wr i v (ret tt)) (fun a => awrite a i v).
Proof.
  intros m a a' Hv Hg. destruct (awrite_nth a a' i v Hg) as (Hi & W & O).
  assert (Hm : m i = nth_error a i) by apply Hv. apply nth_error_Some in Hi. destruct (nth_error a i) as [v0|] eqn:E; [ | contradiction ].
  exists tt, (update Nat.eqb m i v). split; [ cbn; rewrite Hm; reflexivity | ]. split; [ exact I | ].
  intros k. destruct (Nat.eq_dec k i) as [->|Hk].
  - rewrite W. exact (update_same Nat.eqb eqb_spec_nat m i v).
  - rewrite (O k Hk), (update_other Nat.eqb eqb_spec_nat m i v k Hk). apply Hv.
Qed.

(* ---------- rows ---------- *)
Lemma ofold_len {S X} (len : S -> nat) (f : S -> X -> outcome S) l : (forall s x s', In x l -> f s x = Ok s' -> len s' = len s) ->
  forall s s', ofold f l s = Ok s' -> len s' = len s.
Proof.
  induction l as [|x l IH]; intros H s s' E; cbn in E; [ injection E as <-; reflexivity | ].
  destruct (f s x) as [s1| | |] eqn:E1; try discriminate. cbn in E.
  rewrite (IH (fun s x s' Hx => H s x s' (or_intror Hx)) s1 s' E). apply (H s x s1 (or_introl eq_refl) E1).
Qed.
Lemma awrite_len {A} (a a' : list A) i v : awrite a i v = Ok a' -> length a' = length a.
Proof. intros H. apply (awrite_inv a a' i v H). Qed.
Lemma PVC_col_len N Nq Np VC P ac pc qc col col' : PVC_col N Nq Np VC P ac pc qc col = Ok col' -> length col' = length col.
Proof.
  unfold PVC_col. apply ofold_len. intros s aj s' _ E. destruct (aread (k_ptr VC) (ac * N + aj)) as [p| | |]; try discriminate. cbn [obind] in E.
  destruct p as [q|]; [ | injection E as <-; reflexivity ]. revert E. apply ofold_len. intros s1 pj s2 _ E.
  destruct (kread VC (Some q) (pc * Np + pj)) as [v| | |]; try discriminate. cbn [obind] in E.
  destruct (aread (c_col P) _) as [lo| | |]; try discriminate. cbn [obind] in E.
  destruct (aread (c_col P) _) as [hi| | |]; try discriminate. cbn [obind] in E.
  revert E. apply ofold_len. intros s3 k s4 _ E.
  destruct (aread (c_val P) k) as [x| | |]; try discriminate. cbn [obind] in E.
  destruct (aread (c_row P) k) as [row| | |]; try discriminate. cbn [obind] in E.
  destruct (aread s3 row) as [old| | |]; try discriminate. cbn [obind] in E. exact (awrite_len _ _ _ _ E).
Qed.
Lemma zero_fill (b : list R) n : length b = n -> ofold (fun b k => awrite b k 0%R) (seq 0 n) b = Ok (repeat 0%R n).
Proof.
  intros Hb.
  destruct (ofold_inv (fun d b' => length b' = n /\ forall k, In k d -> nth_error b' k = Some 0%R) (fun b k => awrite b k 0%R) (seq 0 n) b) as (b' & E & Hl & H).
  - split; [ exact Hb | intros k [] ].
  - intros d x r s El [Hl H]. assert (Hx : In x (seq 0 n)) by (rewrite El; apply in_or_app; right; left; reflexivity). apply in_seq in Hx.
    destruct (awrite_ok s x 0%R) as (s' & E & L & W & O); [ lia | ]. exists s'. split; [ exact E | ]. split; [ lia | ].
    intros k Hk. destruct (Nat.eq_dec k x) as [->|Hn]; [ exact W | ]. rewrite O by exact Hn. apply H. apply in_app_or in Hk.
    destruct Hk as [Hk|[->|[]]]; [ exact Hk | contradiction ].
  - rewrite E. f_equal. apply list_ext; [ rewrite repeat_length; exact Hl | ]. intros k Hk. rewrite H by (apply in_seq; lia).
    symmetry. rewrite (nth_error_nth' _ 0%R) by (rewrite repeat_length; lia). f_equal. apply nth_repeat.
Qed.
Lemma touches_pure {L V A B} F dead (o : outcome A) (k : A -> acc L V B) : (forall x, touches F dead (k x)) -> touches F dead (abind (Done o) k).
Proof. intros H. destruct o; cbn; auto. Qed.

Section Rows.
Variables (N Nq Np : nat) (CT VC : kop) (P : csc) (deut qcom : list nat).
Notation D := (N * Nq * Np).
Notation nq := (length qcom).
Definition rows_W (ac : nat) : list nat :=
  flat_map (fun qc => flat_map (fun pc => flat_map (fun i => map (fun j => rows_cell N Nq Np nq ac qc pc i j) (seq 0 nq)) (seq 0 (length deut))) (seq 0 Np)) (seq 0 Nq).
Lemma in_rows_W ac l : In l (rows_W ac) <-> exists qc pc i j, qc < Nq /\ pc < Np /\ i < length deut /\ j < nq /\ l = rows_cell N Nq Np nq ac qc pc i j.
Proof.
  unfold rows_W. split.
  - intros H. apply in_flat_map in H. destruct H as (qc & H1 & H). apply in_flat_map in H. destruct H as (pc & H2 & H).
    apply in_flat_map in H. destruct H as (i & H3 & H). apply in_map_iff in H. destruct H as (j & <- & H4).
    rewrite in_seq in *. exists qc, pc, i, j. repeat split; lia.
  - intros (qc & pc & i & j & H1 & H2 & H3 & H4 & ->). apply in_flat_map. exists qc. rewrite in_seq. split; [ lia | ].
    apply in_flat_map. exists pc. rewrite in_seq. split; [ lia | ]. apply in_flat_map. exists i. rewrite in_seq. split; [ lia | ].
    apply in_map_iff. exists j. rewrite in_seq. split; [ reflexivity | lia ].
Qed.
Lemma cell3_lt ac qc pc : ac < N -> qc < Nq -> pc < Np -> ac * Nq * Np + qc * Np + pc < D.
Proof. intros. replace (ac * Nq * Np + qc * Np + pc) with ((ac * Nq + qc) * Np + pc) by ring. apply rm_lt; [ apply rm_lt; assumption | assumption ]. Qed.
Lemma cell3_inj ac qc pc ac' qc' pc' : qc < Nq -> pc < Np -> qc' < Nq -> pc' < Np ->
  ac * Nq * Np + qc * Np + pc = ac' * Nq * Np + qc' * Np + pc' -> ac = ac' /\ qc = qc' /\ pc = pc'.
Proof.
  intros. assert (E : (ac * Nq + qc) * Np + pc = (ac' * Nq + qc') * Np + pc') by lia.
  apply rm_inj in E; [ | assumption.. ]. destruct E as [E ->]. apply rm_inj in E; [ | assumption.. ]. destruct E as [-> ->]. auto.
Qed.
Lemma rows_disj a b l : a < N -> b < N -> a <> b -> In l (rows_W a) -> ~ In l (rows_W b).
Proof.
  intros Ha Hb Hn H H'. apply in_rows_W in H, H'. destruct H as (qc & pc & i & j & H1 & H2 & H3 & H4 & E).
  destruct H' as (qc' & pc' & i' & j' & H1' & H2' & H3' & H4' & E'). rewrite E in E'. unfold rows_cell in E'.
  apply rm_inj in E'; [ | apply cell3_lt; assumption.. ]. destruct E' as [_ E']. apply cell3_inj in E'; [ | assumption.. ]. lia.
Qed.
Lemma rows_touch t s ac : touches (fun l => In l (rows_W ac)) (fun _ => False) (rows_body N Nq Np CT VC P deut qcom t s ac).
Proof.
  unfold rows_body. apply touches_fold. intros b qc Hqc. apply touches_fold. intros b' pc Hpc.
  apply touches_pure. intros b1. apply touches_pure. intros b2. apply touches_bind; [ | intros []; exact I ].
  apply touches_fold. intros [] [i d] Hi. apply touches_fold. intros [] [j q] Hj. apply touches_pure. intros x. cbn [touches].
  split; [ | exact I ]. apply in_rows_W. exists qc, pc, i, j. cbn [fst].
  apply in_combine_l in Hi, Hj. rewrite in_seq in *. repeat split; lia.
Qed.
Notation lenD := (fun b : list R => length b = D).
(* the private column does not matter: it is zeroed first *)
Definition rows_step (ac qc : nat) (buf : list R) (pc : nat) : acc nat R (list R) :=
      abind (Done (ofold (fun b k => awrite b k 0%R) (seq 0 D) buf)) (fun buf =>
      abind (Done (PVC_col N Nq Np VC P ac pc qc buf)) (fun buf =>
      abind (afold (fun (_ : unit) (id : nat * nat) => afold (fun (_ : unit) (jq : nat * nat) =>
          abind (Done (CPVC_row_element N Nq Np CT buf (snd id) (snd jq))) (fun x =>
          Wr (rows_cell N Nq Np (length qcom) ac qc pc (fst id) (fst jq)) x (ret tt)))
        (combine (seq 0 (length qcom)) qcom) tt) (combine (seq 0 (length deut)) deut) tt) (fun _ => ret buf))).
Lemma rows_step_same ac qc s s' pc : length s = D -> length s' = D -> rows_step ac qc s pc = rows_step ac qc s' pc.
Proof. intros H H'. unfold rows_step. rewrite !zero_fill by assumption. reflexivity. Qed.
Lemma rows_step_len ac qc s pc m r m1 : run Nat.eqb (rows_step ac qc s pc) m = (Ok r, m1) -> length s = D -> length r = D.
Proof.
  intros E Hs. unfold rows_step in E. rewrite zero_fill in E by exact Hs. cbn [abind] in E.
  destruct (PVC_col N Nq Np VC P ac pc qc (repeat 0%R D)) as [col| | |] eqn:Ep; try discriminate. cbn [abind] in E.
  apply PVC_col_len in Ep. rewrite repeat_length in Ep.
  rewrite run_bind in E. destruct (run Nat.eqb _ m) as [[[]| | |] m2]; cbn in E; try discriminate. congruence.
Qed.
(* folds whose steps ignore the private state *)
Lemma fold_same {L V S X} (leqb : L -> L -> bool) (Q : S -> Prop) (f : S -> X -> acc L V S) l :
  (forall s s' x m r m1, In x l -> Q s -> Q s' -> run leqb (f s x) m = (Ok r, m1) -> exists r', run leqb (f s' x) m = (Ok r', m1) /\ Q r') ->
  forall s s' m r m1, Q s -> Q s' -> run leqb (afold f l s) m = (Ok r, m1) -> exists r', run leqb (afold f l s') m = (Ok r', m1) /\ Q r'.
Proof.
  induction l as [|x l IH]; intros H s s' m r m1 Hs Hs' E; cbn [afold] in *.
  - exists s'. cbn in *. split; [ congruence | exact Hs' ].
  - rewrite run_bind in E. destruct (run leqb (f s x) m) as [[r1| | |] m2] eqn:E1; try discriminate.
    destruct (H s s' x m r1 m2 (or_introl eq_refl) Hs Hs' E1) as (r2 & E2 & Q2).
    destruct (H s s x m r1 m2 (or_introl eq_refl) Hs Hs E1) as (r3 & E3 & Q3). assert (r3 = r1) by congruence. subst r3.
    rewrite (run_bind_ok leqb _ _ _ _ _ E2). exact (IH (fun s s' x m r m1 Hx => H s s' x m r m1 (or_intror Hx)) r1 r2 m2 r m1 Q3 Q2 E).
Qed.
Lemma rows_same t t' s s' ac m r m1 : length s = D -> length s' = D ->
  run Nat.eqb (rows_body N Nq Np CT VC P deut qcom t s ac) m = (Ok r, m1) ->
  exists r', run Nat.eqb (rows_body N Nq Np CT VC P deut qcom t' s' ac) m = (Ok r', m1) /\ length r' = D.
Proof.
  intros Hs Hs'. unfold rows_body.
  apply (fold_same Nat.eqb lenD (fun buf qc => afold (rows_step ac qc) (seq 0 Np) buf) (seq 0 Nq)); [ | exact Hs | exact Hs' ].
  intros b b' qc m2 r2 m3 Hqc Hb Hb'. apply (fold_same Nat.eqb lenD (rows_step ac qc) (seq 0 Np)); [ | exact Hb | exact Hb' ].
  intros c c' pc m4 r4 m5 Hpc Hc Hc' E. exists r4. rewrite (rows_step_same ac qc c' c pc Hc' Hc). split; [ exact E | exact (rows_step_len ac qc c pc _ _ _ E Hc) ].
Qed.
Lemma rows_sim t s ac : length s = D -> sim Nat.eqb arr lenD (rows_body N Nq Np CT VC P deut qcom t s ac)
  (fun rows => ofold (fun rows qc => ofold (fun rows pc =>
      do pvc <- PVC_col N Nq Np VC P ac pc qc (repeat 0%R D);
      ofold (fun rows (id : nat * nat) => ofold (fun rows (jq : nat * nat) =>
          do x <- CPVC_row_element N Nq Np CT pvc (snd id) (snd jq);
          awrite rows ((fst id * length qcom + fst jq) * D + (ac * Nq * Np + qc * Np + pc)) x)
        (combine (seq 0 (length qcom)) qcom) rows) (combine (seq 0 (length deut)) deut) rows)
    (seq 0 Np) rows) (seq 0 Nq) rows).
Proof.
  intros Hs. unfold rows_body. apply (sim_fold Nat.eqb arr lenD); [ | exact Hs ]. intros b qc _ Hb.
  apply (sim_fold Nat.eqb arr lenD); [ | exact Hb ]. intros c pc _ Hc. rewrite zero_fill by exact Hc. cbn [abind].
  apply sim_done. intros pvc Ep. apply PVC_col_len in Ep. rewrite repeat_length in Ep.
  intros m a a' Hv Hg.
  assert (S1 : sim Nat.eqb arr (fun _ : unit => True) (afold (fun (_ : unit) (id : nat * nat) => afold (fun (_ : unit) (jq : nat * nat) =>
          abind (Done (CPVC_row_element N Nq Np CT pvc (snd id) (snd jq))) (fun x =>
          Wr (rows_cell N Nq Np (length qcom) ac qc pc (fst id) (fst jq)) x (ret tt)))
        (combine (seq 0 (length qcom)) qcom) tt) (combine (seq 0 (length deut)) deut) tt)
     (ofold (fun rows (id : nat * nat) => ofold (fun rows (jq : nat * nat) =>
          do x <- CPVC_row_element N Nq Np CT pvc (snd id) (snd jq);
          awrite rows ((fst id * length qcom + fst jq) * D + (ac * Nq * Np + qc * Np + pc)) x)
        (combine (seq 0 (length qcom)) qcom) rows) (combine (seq 0 (length deut)) deut))).
  { apply sim_fold; [ | exact I ]. intros [] id _ _. apply sim_fold; [ | exact I ]. intros [] jq _ _.
    apply sim_done. intros x _. apply sim_wr. }
  destruct (S1 m a a' Hv Hg) as (r & m1 & E1 & _ & V1). exists pvc, m1. rewrite (run_bind_ok Nat.eqb _ _ _ _ _ E1).
  split; [ reflexivity | ]. split; [ exact Ep | exact V1 ].
Qed.

Theorem rows_region rows rows' assign init sched : CPVC_rows N Nq Np CT VC P deut qcom rows = Ok rows' ->
  Permutation (concat assign) (seq 0 N) -> (forall t, length (init t) = D) ->
  let threads := omp_for (rows_body N Nq Np CT VC P deut qcom) init assign in
  let st := parallel Nat.eqb threads (nth_error rows) sched in
  ~ failed st /\ (forall l, ~ race_on (elog st) l) /\
  (finished st -> forall k, shared st k = nth_error rows' k) /\
  (exists more, finished (parallel Nat.eqb threads (nth_error rows) (sched ++ more))).
Proof.
  intros E Hp Hi. cbv zeta. unfold CPVC_rows in E. cbv zeta in E.
  assert (S1 := sim_fold Nat.eqb arr lenD (rows_body N Nq Np CT VC P deut qcom 0) _ (seq 0 N) (fun s ac _ Hs => rows_sim 0 s ac Hs) (repeat 0%R D) (repeat_length _ _)).
  destruct (S1 (nth_error rows) rows rows' (fun k => eq_refl) E) as (r & m' & E1 & _ & V1).
  destruct (independent_loop Nat.eqb eqb_spec_nat (rows_body N Nq Np CT VC P deut qcom) rows_W lenD (seq 0 N) (nth_error rows)) with
    (s0 := repeat 0%R D) (assign := assign) (init := init) (r := r) (mseq := m') (sched := sched) as (H1 & H2 & H3 & H4).
  - apply seq_NoDup.
  - intros i j l Ha Hb. rewrite in_seq in *. apply rows_disj; lia.
  - intros t s i _. apply rows_touch.
  - apply repeat_length.
  - intros t t' s s' i m r0 m1 _ Hs Hs'. apply rows_same; assumption.
  - exact Hp.
  - exact Hi.
  - exact E1.
  - split; [ exact H1 | ]. split; [ exact H2 | ]. split; [ | exact H4 ]. intros Fin k. rewrite (H3 Fin k). apply V1.
Qed.
End Rows.
