From Coq Require Import Reals Permutation.
From Verif Require Import Common ArrayLib PWModel SwpModel KernelModel GridModel PermModel OmpModel OmpProofs OmpRegions OmpCols.
Open Scope nat_scope.
Open Scope list_scope.

Notation omem := (memory (nat * nat) ov_val).
Definition ov_st : Type := (list R * list R * list bool)%type.
Definition ov_mem (s : ov_st) : omem := fun l =>
  let '(phi, wphi, tab) := s in
  match fst l with 0 => option_map VR (nth_error phi (snd l)) | 1 => option_map VR (nth_error wphi (snd l)) | 2 => option_map VB (nth_error tab (snd l)) | _ => None end.
Definition is3 (m : omem) (s : ov_st) : Prop := forall l, m l = ov_mem s l.

Lemma wr_cell {V} (inj : V -> ov_val) a a' i v (m : omem) arrno : awrite a i v = Ok a' -> m (arrno, i) = option_map inj (nth_error a i) ->
  m (arrno, i) <> None /\ forall k, update peqb m (arrno, i) (inj v) (arrno, k) = if k =? i then Some (inj v) else m (arrno, k).
Proof.
  intros E Hm. destruct (awrite_inv a a' i v E) as (Hi & _). split.
  - rewrite Hm. apply nth_error_Some in Hi. destruct (nth_error a i); [ discriminate | contradiction ].
  - intros k. destruct (Nat.eqb_spec k i) as [->|Hk]; [ apply (update_same peqb peqb_spec) | apply (update_other peqb peqb_spec); congruence ].
Qed.
Ltac wr3 E := let H := fresh in destruct (awrite_inv _ _ _ _ E) as (H & _ & ?W & ?O).

Lemma sim_phi i v phi phi' wphi tab m : awrite phi i v = Ok phi' -> is3 m (phi, wphi, tab) ->
  m (0, i) <> None /\ is3 (update peqb m (0, i) (VR v)) (phi', wphi, tab).
Proof.
  intros E Hm. destruct (awrite_inv _ _ _ _ E) as (Hi & _ & W & O). split.
  - rewrite (Hm (0, i)). cbn. apply nth_error_Some in Hi. destruct (nth_error phi i); [ discriminate | contradiction ].
  - intros [a k]. destruct (peqb_spec (a, k) (0, i)) as [Ek|Hn].
    + injection Ek as -> ->. rewrite (update_same peqb peqb_spec). cbn. rewrite W. reflexivity.
    + rewrite (update_other peqb peqb_spec) by exact Hn. rewrite (Hm (a, k)). cbn. destruct a as [|a]; [ | reflexivity ].
      rewrite O; [ reflexivity | congruence ].
Qed.
Lemma sim_wphi i v phi wphi wphi' tab m : awrite wphi i v = Ok wphi' -> is3 m (phi, wphi, tab) ->
  m (1, i) <> None /\ is3 (update peqb m (1, i) (VR v)) (phi, wphi', tab).
Proof.
  intros E Hm. destruct (awrite_inv _ _ _ _ E) as (Hi & _ & W & O). split.
  - rewrite (Hm (1, i)). cbn. apply nth_error_Some in Hi. destruct (nth_error wphi i); [ discriminate | contradiction ].
  - intros [a k]. destruct (peqb_spec (a, k) (1, i)) as [Ek|Hn].
    + injection Ek as -> ->. rewrite (update_same peqb peqb_spec). cbn. rewrite W. reflexivity.
    + rewrite (update_other peqb peqb_spec) by exact Hn. rewrite (Hm (a, k)). cbn. destruct a as [|[|a]]; [ reflexivity | | reflexivity ].
      rewrite O; [ reflexivity | congruence ].
Qed.
Lemma sim_tab i v phi wphi tab tab' m : awrite tab i v = Ok tab' -> is3 m (phi, wphi, tab) ->
  m (2, i) <> None /\ is3 (update peqb m (2, i) (VB v)) (phi, wphi, tab').
Proof.
  intros E Hm. destruct (awrite_inv _ _ _ _ E) as (Hi & _ & W & O). split.
  - rewrite (Hm (2, i)). cbn. apply nth_error_Some in Hi. destruct (nth_error tab i); [ discriminate | contradiction ].
  - intros [a k]. destruct (peqb_spec (a, k) (2, i)) as [Ek|Hn].
    + injection Ek as -> ->. rewrite (update_same peqb peqb_spec). cbn. rewrite W. reflexivity.
    + rewrite (update_other peqb peqb_spec) by exact Hn. rewrite (Hm (a, k)). cbn. destruct a as [|[|[|a]]]; try reflexivity.
      rewrite O; [ reflexivity | congruence ].
Qed.
Lemma run_wr {A} (m : omem) l v (p : acc _ _ A) : m l <> None -> run peqb (Wr l v p) m = run peqb p (update peqb m l v).
Proof. intros H. cbn. destruct (m l); [ reflexivity | contradiction ]. Qed.

Section Ov.
Variables (roots : list R) (dleg : R -> R) (Np Nq : nat) (pb qb xs : list R).
Notation Nf := (Nphi roots).
Notation T1 := (fun _ : unit => True).

Lemma gauss_sim off lo hi : sim peqb is3 T1
  (afold (fun _ j => abind (Done (aread roots j)) (fun x =>
               Wr (1, off + j) (VR (gp_weight dleg lo hi x))
              (Wr (0, off + j) (VR (gp_node lo hi x)) (ret tt)))) (seq 0 Nf) tt)
  (fun '(phi, wphi, tab) => do '(phi, wphi) <- calc_gauss_points roots dleg off lo hi (phi, wphi); Ok (phi, wphi, tab)).
Proof.
  intros m [[phi wphi] tab] s' Hv Hg. unfold calc_gauss_points in Hg.
  revert m phi wphi Hv Hg. generalize (seq 0 Nf). induction l as [|j l IH]; intros m phi wphi Hv Hg; cbn [ofold afold obind] in *.
  - injection Hg as <-. exists tt, m. split; [ reflexivity | split; [ exact I | exact Hv ] ].
  - destruct (aread roots j) as [x| | |]; try discriminate. cbn [obind abind] in *.
    destruct (awrite wphi (off + j) (gp_weight dleg lo hi x)) as [w1| | |] eqn:Ew; try discriminate. cbn [obind] in Hg.
    destruct (awrite phi (off + j) (gp_node lo hi x)) as [p1| | |] eqn:Ep; try discriminate. cbn [obind] in Hg.
    destruct (sim_wphi _ _ phi wphi w1 tab m Ew Hv) as [A1 V1]. destruct (sim_phi _ _ phi p1 w1 tab _ Ep V1) as [A2 V2].
    rewrite run_wr by exact A1. rewrite run_wr by exact A2. cbn [ret abind]. exact (IH _ _ _ V2 Hg).
Qed.
Lemma gauss_len off lo hi phi wphi phi' wphi' : calc_gauss_points roots dleg off lo hi (phi, wphi) = Ok (phi', wphi') ->
  length phi' = length phi /\ (0 < Nf -> off + Nf <= length phi).
Proof.
  unfold calc_gauss_points. intros E.
  assert (G : forall l p w, ofold (fun '(x, w) j => do t <- aread roots j; do w <- awrite w (off + j) (gp_weight dleg lo hi t);
      do x <- awrite x (off + j) (gp_node lo hi t); Ok (x, w)) l (p, w) = Ok (phi', wphi') -> length phi' = length p /\ forall j, In j l -> off + j < length p).
  { induction l as [|j l IH]; intros p w E1; cbn [ofold] in E1; [ injection E1 as -> ->; split; [ reflexivity | intros j [] ] | ].
    destruct (aread roots j) as [x| | |]; try discriminate. cbn [obind] in *.
    destruct (awrite w _ _) as [w1| | |]; try discriminate. cbn [obind] in E1.
    destruct (awrite p _ _) as [p1| | |] eqn:Ep; try discriminate. cbn [obind] in E1. destruct (awrite_inv _ _ _ _ Ep) as (Hi & L1 & _).
    destruct (IH p1 w1 E1) as [L2 H2]. split; [ congruence | ]. intros j' [<-|Hj]; [ exact Hi | rewrite <- L1; apply H2, Hj ]. }
  destruct (G _ _ _ E) as [L H]. split; [ exact L | ]. intros Hn. assert (off + (Nf - 1) < length phi) by (apply H, in_seq; lia). lia.
Qed.
Lemma read_phis off phi wphi tab m : is3 m (phi, wphi, tab) -> (0 < Nf -> off + Nf <= length phi) ->
  run peqb (afold (fun l j => rdR (0, off + j) (fun x => ret (l ++ [x]))) (seq 0 Nf) []) m = (Ok (slice phi off Nf), m).
Proof.
  intros Hv Hn.
  assert (G : forall n, n <= Nf -> forall k l, k + n = Nf -> run peqb (afold (fun l j => rdR (0, off + j) (fun x => ret (l ++ [x]))) (seq k n) l) m
     = (Ok (l ++ firstn n (skipn (off + k) phi)), m)).
  { induction n as [|n IH]; intros Hle k l Hk; cbn [seq afold].
    - cbn. rewrite app_nil_r. reflexivity.
    - assert (Hlt : off + k < length phi) by lia. destruct (nth_error phi (off + k)) as [x|] eqn:Ex; [ | apply nth_error_None in Ex; lia ].
      unfold rdR at 1. cbn [abind]. assert (Em : m (0, off + k) = Some (VR x)) by (rewrite (Hv (0, off + k)); cbn; rewrite Ex; reflexivity).
      cbn [run]. rewrite Em. cbn [abind ret]. rewrite IH by lia. rewrite <- app_assoc. f_equal. f_equal. f_equal.
      replace (off + S k) with (S (off + k)) by lia.
      clear -Ex. revert Ex. generalize (off + k). intros i. revert phi. induction i as [|i IHi]; intros [|y phi] Ex; try discriminate.
      + cbn in Ex. injection Ex as ->. reflexivity.
      + cbn [skipn]. exact (IHi phi Ex). }
  rewrite (G Nf) by lia. cbn [app]. unfold slice. rewrite Nat.add_0_r. reflexivity.
Qed.

Definition seq_ov (st : ov_st) (qp : nat) : outcome ov_st :=
    do qp_l <- aread qb qp; do qp_u <- aread qb (qp + 1)%nat;
    ofold (fun '(phi, wphi, tab) pp =>
      do pp_l <- aread pb pp; do pp_u <- aread pb (pp + 1)%nat;
      let phi_lower := atan_ratio pp_l qp_u in
      let phi_upper := atan_ratio pp_u qp_l in
      do '(phi, wphi) <- calc_gauss_points roots dleg ((qp * Np + pp) * Nf) phi_lower phi_upper (phi, wphi);
      do tab <- ofold (fun tab q =>
        do q_l <- aread qb q; do q_u <- aread qb (q + 1)%nat;
        ofold (fun tab p =>
          do p_l <- aread pb p; do p_u <- aread pb (p + 1)%nat;
          awrite tab (pq_idx Np Nq qp pp q p)
            (cell_overlap phi_lower phi_upper pp_l pp_u qp_l qp_u p_l p_u q_l q_u
               (slice phi ((qp * Np + pp) * Nf) Nf) xs)) (seq 0 Np) tab) (seq 0 Nq) tab;
      Ok (phi, wphi, tab)) (seq 0 Np) st.
Lemma seq_ov_eq s : calculate_WP_overlap roots dleg Np Nq pb qb xs s = ofold seq_ov (seq 0 Nq) s.
Proof. reflexivity. Qed.

Lemma ov_sim t qp : sim peqb is3 T1 (ov_body roots dleg Np Nq pb qb xs t tt qp) (fun s => seq_ov s qp).
Proof.
  unfold ov_body, seq_ov. apply sim_done. intros qp_l _. apply sim_done. intros qp_u _.
  apply sim_fold; [ | exact I ]. intros [] pp _ _ m [[phi wphi] tab] s' Hv Hg.
  destruct (aread pb pp) as [pp_l| | |]; try discriminate. cbn [obind abind] in *.
  destruct (aread pb (pp + 1)) as [pp_u| | |]; try discriminate. cbn [obind abind] in *. cbv zeta in *.
  destruct (calc_gauss_points roots dleg ((qp * Np + pp) * Nf) (atan_ratio pp_l qp_u) (atan_ratio pp_u qp_l) (phi, wphi)) as [[phi1 wphi1]| | |] eqn:Eg; try discriminate.
  cbn [obind] in Hg.
  destruct (gauss_sim ((qp * Np + pp) * Nf) (atan_ratio pp_l qp_u) (atan_ratio pp_u qp_l) m (phi, wphi, tab) (phi1, wphi1, tab) Hv) as ([] & m1 & E1 & _ & V1).
  { rewrite Eg. reflexivity. }
  rewrite (run_bind_ok peqb _ _ _ _ _ E1).
  destruct (gauss_len _ _ _ _ _ _ _ Eg) as [Ll Hn].
  (* the table of the cell; phi and wphi stay *)
  assert (S2 : sim peqb (fun m (tab : list bool) => is3 m (phi1, wphi1, tab)) T1
      (afold (fun _ q => abind (Done (aread qb q)) (fun q_l => abind (Done (aread qb (q + 1))) (fun q_u =>
        afold (fun _ p => abind (Done (aread pb p)) (fun p_l => abind (Done (aread pb (p + 1))) (fun p_u =>
          abind (afold (fun l j => rdR (0, (qp * Np + pp) * Nf + j) (fun x => ret (l ++ [x]))) (seq 0 Nf) []) (fun phis =>
          Wr (2, pq_idx Np Nq qp pp q p)
            (VB (cell_overlap (atan_ratio pp_l qp_u) (atan_ratio pp_u qp_l) pp_l pp_u qp_l qp_u p_l p_u q_l q_u phis xs)) (ret tt)))))
          (seq 0 Np) tt))) (seq 0 Nq) tt)
      (ofold (fun tab q =>
        do q_l <- aread qb q; do q_u <- aread qb (q + 1)%nat;
        ofold (fun tab p =>
          do p_l <- aread pb p; do p_u <- aread pb (p + 1)%nat;
          awrite tab (pq_idx Np Nq qp pp q p)
            (cell_overlap (atan_ratio pp_l qp_u) (atan_ratio pp_u qp_l) pp_l pp_u qp_l qp_u p_l p_u q_l q_u
               (slice phi1 ((qp * Np + pp) * Nf) Nf) xs)) (seq 0 Np) tab) (seq 0 Nq))).
  { apply sim_fold; [ | exact I ]. intros [] q _ _. apply sim_done. intros q_l _. apply sim_done. intros q_u _.
    apply sim_fold; [ | exact I ]. intros [] p _ _. apply sim_done. intros p_l _. apply sim_done. intros p_u _.
    intros m2 tb tb' V2 Hw. rewrite (run_bind_ok peqb _ _ _ _ _ (read_phis ((qp * Np + pp) * Nf) phi1 wphi1 tb m2 V2 ltac:(rewrite Ll; exact Hn))).
    destruct (sim_tab _ _ phi1 wphi1 tb tb' m2 Hw V2) as [A3 V3]. rewrite run_wr by exact A3. exists tt. eexists. split; [ reflexivity | ]. split; [ exact I | exact V3 ]. }
  destruct (ofold _ (seq 0 Nq) tab) as [tab1| | |] eqn:Et in Hg; try discriminate. cbn [obind] in Hg. injection Hg as <-.
  exact (S2 m1 tab tab1 V1 Et).
Qed.

Definition ov_W (qp : nat) : list (nat * nat) :=
  flat_map (fun pp => flat_map (fun j => [(0, (qp * Np + pp) * Nf + j); (1, (qp * Np + pp) * Nf + j)]) (seq 0 Nf)
    ++ flat_map (fun q => map (fun p => (2, pq_idx Np Nq qp pp q p)) (seq 0 Np)) (seq 0 Nq)) (seq 0 Np).
Lemma in_ov_W qp l : In l (ov_W qp) <-> exists pp, pp < Np /\
  ((exists j, j < Nf /\ (l = (0, (qp * Np + pp) * Nf + j) \/ l = (1, (qp * Np + pp) * Nf + j))) \/
   (exists q p, q < Nq /\ p < Np /\ l = (2, pq_idx Np Nq qp pp q p))).
Proof.
  unfold ov_W. rewrite in_flat_map. split.
  - intros (pp & Hpp & H). apply in_seq in Hpp. exists pp. split; [ lia | ]. apply in_app_or in H. destruct H as [H|H].
    + left. apply in_flat_map in H. destruct H as (j & Hj & H). apply in_seq in Hj. exists j. split; [ lia | ]. destruct H as [<-|[<-|[]]]; auto.
    + right. apply in_flat_map in H. destruct H as (q & Hq & H). apply in_map_iff in H. destruct H as (p & <- & Hp). rewrite in_seq in *.
      exists q, p. split; [ lia | split; [ lia | reflexivity ] ].
  - intros (pp & Hpp & H). exists pp. rewrite in_seq. split; [ lia | ]. apply in_or_app. destruct H as [(j & Hj & H)|(q & p & Hq & Hp & ->)].
    + left. apply in_flat_map. exists j. rewrite in_seq. split; [ lia | ]. destruct H as [-> | ->]; cbn; auto.
    + right. apply in_flat_map. exists q. rewrite in_seq. split; [ lia | ]. apply in_map_iff. exists p. rewrite in_seq. split; [ reflexivity | lia ].
Qed.
Lemma pq_horner qp pp q p : pq_idx Np Nq qp pp q p = ((qp * Np + pp) * Nq + q) * Np + p.
Proof. unfold pq_idx. ring. Qed.
Lemma ov_disj a b l : a <> b -> In l (ov_W a) -> ~ In l (ov_W b).
Proof.
  intros Hn H H'. apply in_ov_W in H, H'. destruct H as (pp & Hp & H), H' as (pp' & Hp' & H').
  destruct H as [(j & Hj & H)|(q & p & H1 & H2 & H)], H' as [(j' & Hj' & H')|(q' & p' & H1' & H2' & H')].
  - destruct H as [-> | ->], H' as [H' | H']; try discriminate; injection H' as E;
      (apply rm_inj in E; [ | assumption.. ]); destruct E as [E _]; (apply rm_inj in E; [ | assumption.. ]); lia.
  - destruct H as [-> | ->]; discriminate.
  - destruct H' as [H' | H']; congruence.
  - rewrite H in H'. injection H' as E. rewrite !pq_horner in E. apply rm_inj in E; [ | assumption.. ]. destruct E as [E _].
    apply rm_inj in E; [ | assumption.. ]. destruct E as [E _]. apply rm_inj in E; [ | assumption.. ]. lia.
Qed.
Lemma ov_touch t u qp : touches (fun l => In l (ov_W qp)) (fun _ => False) (ov_body roots dleg Np Nq pb qb xs t u qp).
Proof.
  unfold ov_body. apply touches_pure. intros qp_l. apply touches_pure. intros qp_u. apply touches_fold. intros [] pp Hpp. apply in_seq in Hpp.
  apply touches_pure. intros pp_l. apply touches_pure. intros pp_u. cbv zeta.
  assert (C : forall j a, j < Nf -> a = 0 \/ a = 1 -> In (a, (qp * Np + pp) * Nf + j) (ov_W qp)).
  { intros j a Hj Ha. apply in_ov_W. exists pp. split; [ lia | ]. left. exists j. split; [ exact Hj | ]. destruct Ha as [-> | ->]; auto. }
  apply touches_bind.
  - apply touches_fold. intros [] j Hj. apply in_seq in Hj. apply touches_pure. intros x. cbn [touches]. split; [ apply C; [ lia | auto ] | ].
    split; [ apply C; [ lia | auto ] | exact I ].
  - intros []. apply touches_fold. intros [] q Hq. apply in_seq in Hq. apply touches_pure. intros q_l. apply touches_pure. intros q_u.
    apply touches_fold. intros [] p Hp. apply in_seq in Hp. apply touches_pure. intros p_l. apply touches_pure. intros p_u.
    apply touches_bind.
    + apply touches_fold. intros l j Hj. apply in_seq in Hj. unfold rdR. cbn [touches]. left. split; [ apply C; [ lia | auto ] | ]. intros [x|b]; exact I.
    + intros phis. cbn [touches]. split; [ | exact I ]. apply in_ov_W. exists pp. split; [ lia | ]. right. exists q, p. split; [ lia | split; [ lia | reflexivity ] ].
Qed.

Theorem overlap_region s s' assign sched : calculate_WP_overlap roots dleg Np Nq pb qb xs s = Ok s' ->
  Permutation (concat assign) (seq 0 Nq) ->
  let threads := omp_for (ov_body roots dleg Np Nq pb qb xs) (fun _ => tt) assign in
  let st := parallel peqb threads (ov_mem s) sched in
  ~ failed st /\ (forall l, ~ race_on (elog st) l) /\
  (finished st -> forall l, shared st l = ov_mem s' l) /\
  (exists more, finished (parallel peqb threads (ov_mem s) (sched ++ more))).
Proof.
  rewrite seq_ov_eq. intros E Hp. cbv zeta.
  assert (S1 := sim_fold peqb is3 T1 (ov_body roots dleg Np Nq pb qb xs 0) seq_ov (seq 0 Nq) (fun u x _ _ => match u with tt => ov_sim 0 x end) tt I).
  destruct (S1 (ov_mem s) s s' (fun l => eq_refl) E) as (r & m' & E1 & _ & V1).
  destruct (independent_loop peqb peqb_spec (ov_body roots dleg Np Nq pb qb xs) ov_W T1 (seq 0 Nq) (ov_mem s) (seq_NoDup _ _)) with
    (s0 := tt) (assign := assign) (init := fun _ : nat => tt) (r := r) (mseq := m') (sched := sched) as (H1 & H2 & H3 & H4).
  - intros i j l _ _. apply ov_disj.
  - intros t u i _. apply ov_touch.
  - exact I.
  - intros t t' u u' i m r1 m1 _ _ _ R. exists r1. split; [ exact R | exact I ].
  - exact Hp.
  - intros t. exact I.
  - exact E1.
  - split; [ exact H1 | ]. split; [ exact H2 | ]. split; [ | exact H4 ]. intros Fin l. rewrite (H3 Fin l). apply V1.
Qed.
End Ov.
