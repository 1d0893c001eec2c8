(* The kernel columns and rows of a channel are those of kernel_matrix; column chunks. *)
From Coq Require Import Reals Lra ZifyBool.
From Verif Require Import Common ArrayLib PWModel PWSpec PWChnProofs SwpModel ResolventModel GridSpec PotentialSpec
  KernelModel KernelSpec KernelProofs KernelColProofs KernelPropsLemmas FaddeevModel FaddeevSpec FaddeevProofs FaddeevStepProofs.
Open Scope nat_scope.

Lemma state_of_idx N Nq Np x : valid3 N Nq Np x -> state_of Nq Np (idx3 Nq Np x) = x.
Proof.
  destruct x as [[a q] p]. intros (Ha & Hq & Hp). cbn [idx3]. unfold state_of.
  assert (E : (a * Nq + q) * Np + p = (q * Np + p) + a * (Nq * Np)) by ring.
  assert (B : q * Np + p < Nq * Np) by (apply rm_lt; assumption).
  rewrite E. rewrite Nat.div_add by lia. rewrite Nat.div_small by exact B. cbn [plus].
  rewrite Nat.mod_add by lia. rewrite Nat.mod_small by exact B.
  replace ((q * Np + p + a * (Nq * Np)) mod Np) with p.
  - rewrite Nat.add_comm, Nat.div_add by lia. rewrite Nat.div_small by exact Hp. reflexivity.
  - replace (q * Np + p + a * (Nq * Np)) with (p + (q + a * Nq) * Np) by ring. rewrite Nat.mod_add by lia. symmetry. apply Nat.mod_small. exact Hp.
Qed.
Lemma state_of_valid N Nq Np i : 0 < Np -> 0 < Nq -> i < N * Nq * Np -> valid3 N Nq Np (state_of Nq Np i) /\ idx3 Nq Np (state_of Nq Np i) = i.
Proof.
  intros HNp HNq Hi. destruct (rm_surj (N * Nq) Np i Hi) as (aq & p & H1 & H2 & ->). destruct (rm_surj N Nq aq H1) as (a & q & H3 & H4 & ->).
  assert (V : valid3 N Nq Np (a, q, p)) by (cbn; auto).
  change ((a * Nq + q) * Np + p) with (idx3 Nq Np (a, q, p)). rewrite (state_of_idx N _ _ _ V). auto.
Qed.

Section L.
Variables (s : fsys) (tensor iso : bool) (Jm mx c : Z) (states : list pw) (V C : list R * list R).
Hypothesis Hsys : channel_system s tensor iso Jm mx c states V C.
Let A := kernel_matrix s tensor iso states V C.

Lemma link_products rows : length rows = s_nd s * s_nq s * s_D s ->
    (forall ac qc pc, valid3 (s_N s) (s_Nq s) (s_Np s) (ac, qc, pc) ->
      exists col, CPVC_col (s_N s) (s_Nq s) (s_Np s) (s_CT s) (s_VC s) (s_P s) ac pc qc (repeat 0%R (s_D s)) = Ok col /\ length col = s_D s /\
        forall x, valid3 (s_N s) (s_Nq s) (s_Np s) x -> nth (idx3 (s_Nq s) (s_Np s) x) col 0%R =
          kernel (s_N s) (s_Nq s) (s_Np s) (op3 tensor iso (s_Np s) states C) (op3 tensor iso (s_Np s) states V) (s_P s) x (ac, qc, pc)) /\
    (exists rows', CPVC_rows (s_N s) (s_Nq s) (s_Np s) (s_CT s) (s_VC s) (s_P s) (s_d s) (s_q s) rows = Ok rows' /\ length rows' = length rows /\
      forall i j y, i < s_nd s -> j < s_nq s -> valid3 (s_N s) (s_Nq s) (s_Np s) y ->
        nth ((i * s_nq s + j) * s_D s + idx3 (s_Nq s) (s_Np s) y) rows' 0%R =
          kernel (s_N s) (s_Nq s) (s_Np s) (op3 tensor iso (s_Np s) states C) (op3 tensor iso (s_Np s) states V) (s_P s) (nth i (s_d s) 0, nth j (s_q s) 0, 0) y).
Proof.
  intros Lr. destruct Hsys as [H1 H2 (g & ss & H3 & H4 & H5) H6 H7 H8 H9 H10].
  destruct H9 as (HN & (iu & ic & ip & M1 & L1 & E1) & (iu' & ic' & ip' & M2 & L2 & E2)).
  destruct H10 as (HNp & HNq & HP & HG & Hq & Hd & _). unfold s_D in *. rewrite HN in *.
  destruct (products g Jm mx iso ss c states tensor (s_Np s) (s_Nq s) V C H1 H2 H3 H4 H5 H6 H7 H8 (s_P s) iu ic ip iu' ic' ip' (s_d s) (s_q s) rows
     HP HNp M1 L1 M2 L2 Hd Hq Lr) as (CT & VC & F1 & F2 & R1 & R2).
  assert (CT = s_CT s) by congruence. assert (VC = s_VC s) by congruence. subst CT VC.
  split; [ exact R1 | exact R2 ].
Qed.

Lemma link_col j : j < s_D s -> exists col, kernel_col s j (repeat 0%R (s_D s)) = Ok col /\ length col = s_D s /\
  forall i, i < s_D s -> nth i col 0%R = A i j.
Proof.
  intros Hj. pose proof (cs_in _ _ _ _ _ _ _ _ _ Hsys) as (HNp & HNq & _).
  destruct (state_of_valid (s_N s) (s_Nq s) (s_Np s) j HNp HNq Hj) as [Hv Hi].
  destruct (link_products (repeat 0%R (s_nd s * s_nq s * s_D s)) (repeat_length _ _)) as [R1 _].
  destruct (R1 _ _ _ Hv) as (col & E & L & H). exists col. split; [ | split; [ exact L | ] ].
  - unfold kernel_col. rewrite (Nat.mul_comm (s_Np s) (s_Nq s)). exact E.
  - intros i Hi'. destruct (state_of_valid (s_N s) (s_Nq s) (s_Np s) i HNp HNq Hi') as [Hv' Hi2].
    rewrite <- Hi2 at 1. rewrite (H _ Hv'). reflexivity.
Qed.
Lemma link_rows z : length z = s_nd s * s_nq s * s_D s -> exists rows, CPVC_rows (s_N s) (s_Nq s) (s_Np s) (s_CT s) (s_VC s) (s_P s) (s_d s) (s_q s) z = Ok rows /\
  length rows = length z /\ forall r k, r < s_nd s * s_nq s -> k < s_D s -> nth (r * s_D s + k) rows 0%R = A (row_state s r) k.
Proof.
  intros Lz. pose proof (cs_in _ _ _ _ _ _ _ _ _ Hsys) as (HNp & HNq & _ & _ & Hq & Hd & _).
  destruct (link_products z Lz) as (_ & rows & E & L & H). exists rows. split; [ exact E | ]. split; [ exact L | ].
  intros r k Hr Hk. destruct (rm_surj _ _ _ Hr) as (d & q & Hdn & Hqn & ->).
  destruct (state_of_valid (s_N s) (s_Nq s) (s_Np s) k HNp HNq Hk) as [Hv Hi].
  rewrite <- Hi at 1. rewrite (H d q _ Hdn Hqn Hv). unfold A, kernel_matrix, row_state. 
  assert (Eq : (d * s_nq s + q) mod s_nq s = q) by (rewrite Nat.add_comm, Nat.mod_add by lia; apply Nat.mod_small; exact Hqn).
  assert (Ed : (d * s_nq s + q) / s_nq s = d) by (rewrite Nat.add_comm, Nat.div_add by lia; rewrite Nat.div_small by exact Hqn; lia).
  rewrite Eq, Ed. rewrite (state_of_idx (s_N s)); [ reflexivity | ]. cbn. split; [ apply Hd, nth_In; exact Hdn | ]. split; [ apply Hq, nth_In; exact Hqn | exact HNp ].
Qed.
Lemma link_ends : s_breakup s = true -> (forall q, q < s_nq s -> nth q (s_ends s) 0 <= nth (q + 1) (s_ends s) 0) /\ nth (s_nq s) (s_ends s) 0 <= s_nBU s.
Proof. intros Hb. pose proof (cs_in _ _ _ _ _ _ _ _ _ Hsys) as (_ & _ & _ & _ & _ & _ & H). destruct (H Hb) as (_ & H1 & H2 & _). auto. Qed.
Lemma link_cells : s_breakup s = true -> forall x, In x (s_cells s) -> valid3 (s_N s) (s_Nq s) (s_Np s) x.
Proof. intros Hb. pose proof (cs_in _ _ _ _ _ _ _ _ _ Hsys) as (_ & _ & _ & _ & _ & _ & H). destruct (H Hb) as (_ & _ & _ & H3). exact H3. Qed.

(* C41 *)
Lemma history nc (h : nat -> list bool * list bool) n : 0 < nc -> n < num_terms ->
  (forall m, length (fst (h m)) = s_nd s * s_nd s * s_nq s /\ length (snd (h m)) = (if s_breakup s then s_nd s * s_nBU s else 0)) ->
  (forall m i, nth i (fst (h m)) false = true -> nth i (fst (h (S m))) false = true) ->
  (forall m i, nth i (snd (h m)) false = true -> nth i (snd (h (S m))) false = true) ->
  exists st0 st, neumann_init s = Ok st0 /\
    ofold (fun st k => neumann_step s nc (s_D s / nc + 1) (fst (h k)) (snd (h k)) st k) (seq 1 n) st0 = Ok st /\
    (forall e m, In e (el_elts s) -> nth (e_idx e) (fst (h n)) false = false -> m <= n ->
       nth (e_idx e * num_terms + m) (n_a st) c0 = term s A m e) /\
    (forall e m, In e (bu_elts s) -> nth (e_idx e) (snd (h n)) false = false -> m <= n ->
       nth (e_idx e * num_terms + m) (n_abu st) c0 = term s A m e).
Proof.
  intros Hnc Hn Hc H1 H2. pose proof (cs_in _ _ _ _ _ _ _ _ _ Hsys) as (HNp & HNq & HP & HG & Hq & Hd & _).
  destruct (history_ok s A HG link_col link_ends link_rows Hq Hd HNp link_cells nc h n Hnc Hn Hc) as (st0 & st & E0 & E & I).
  - intros m. split; [ exact (H1 m) | exact (H2 m) ].
  - exists st0, st. split; [ exact E0 | ]. split; [ exact E | ]. destruct I. auto.
Qed.
End L.

(* ---------- column chunks ---------- *)
Open Scope Z_scope.
Lemma chunking_ok D : 1 <= D <= 2 ^ 28 -> chunking D = Ok (2 ^ 28 / D, D / (2 ^ 28 / D) + 1) /\ 1 <= 2 ^ 28 / D <= 2 ^ 28.
Proof.
  intros H. assert (Hq : 1 <= 2 ^ 28 / D <= 2 ^ 28).
  { split; [ apply Z.div_le_lower_bound; lia | ]. apply Z.div_le_upper_bound; [ lia | ]. nia. }
  split; [ | exact Hq ]. unfold chunking, zdiv, u64.
  rewrite (Z.mod_small (4 * 1024 ^ 3)) by (split; reflexivity || (vm_compute; congruence)).
  rewrite (Z.mod_small (16 * D)) by lia.
  replace (16 * D =? 0) with false by lia. cbn [obind].
  assert (E : 4 * 1024 ^ 3 / (16 * D) = 2 ^ 28 / D).
  { replace (4 * 1024 ^ 3) with (16 * 2 ^ 28) by reflexivity. rewrite Z.div_mul_cancel_l by lia. reflexivity. }
  rewrite E. set (nc := 2 ^ 28 / D) in *. replace (nc =? 0) with false by lia. cbn [obind].
  rewrite Z.mod_small; [ reflexivity | ]. pose proof (Z.div_le_upper_bound D nc D ltac:(lia) ltac:(nia)).
  pose proof (Z.div_pos D nc ltac:(lia) ltac:(lia)). lia.
Qed.
Lemma chunking_ub D : D = 0 \/ 2 ^ 28 < D < 2 ^ 60 -> chunking D = UB.
Proof.
  intros [->|H]; [ reflexivity | ]. unfold chunking, zdiv, u64.
  rewrite (Z.mod_small (4 * 1024 ^ 3)) by (split; reflexivity || (vm_compute; congruence)).
  rewrite (Z.mod_small (16 * D)) by lia. replace (16 * D =? 0) with false by lia. cbn [obind].
  rewrite Z.div_small; [ reflexivity | ]. split; [ vm_compute; congruence | ]. change (4 * 1024 ^ 3) with (16 * 2 ^ 28). lia.
Qed.
Lemma chunk_range_ok D nc nch k : 1 <= D <= 2 ^ 28 -> chunking D = Ok (nc, nch) -> 0 <= k < nch ->
  chunk_range D nc k = (k * nc, Z.min D ((k + 1) * nc), Z.min D ((k + 1) * nc) - k * nc) /\
  0 <= Z.min D ((k + 1) * nc) - k * nc <= nc.
Proof.
  intros HD Hch Hk. destruct (chunking_ok D HD) as [E Hnc]. rewrite E in Hch. assert (nc = 2 ^ 28 / D /\ nch = D / (2 ^ 28 / D) + 1) as [E1 E2] by (split; congruence).
  rewrite <- E1 in *. clear E Hch E1. subst nch.
  assert (Hkn : k * nc <= D). { pose proof (Z.mul_div_le D nc ltac:(lia)). nia. }
  assert (Hk1 : (k + 1) * nc <= 2 ^ 29) by nia. assert (Hks : k <= 2 ^ 28) by nia.
  unfold chunk_range, u64. rewrite (Z.mod_small (k * nc)) by lia. rewrite (Z.mod_small (k + 1)) by lia. rewrite (Z.mod_small ((k + 1) * nc)) by lia.
  cbv zeta. destruct (Z.gtb_spec ((k + 1) * nc) D) as [Hg|Hg].
  - rewrite Z.min_l by lia. rewrite Z.mod_small by lia. split; [ reflexivity | lia ].
  - rewrite Z.min_r by lia. rewrite Z.mod_small by lia. split; [ reflexivity | lia ].
Qed.
Lemma chunk_cover D nc nch j : 1 <= D <= 2 ^ 28 -> chunking D = Ok (nc, nch) -> 0 <= j < D ->
  0 <= j / nc < nch /\ (forall k, 0 <= k < nch -> (k * nc <= j < Z.min D ((k + 1) * nc) <-> k = j / nc)).
Proof.
  intros HD Hch Hj. destruct (chunking_ok D HD) as [E Hnc]. rewrite E in Hch. assert (nc = 2 ^ 28 / D /\ nch = D / (2 ^ 28 / D) + 1) as [E1 E2] by (split; congruence).
  rewrite <- E1 in *. clear E Hch E1. subst nch. split.
  - split; [ apply Z.div_pos; lia | ]. pose proof (Z.div_le_mono j D nc ltac:(lia) ltac:(lia)). lia.
  - intros k Hk. pose proof (Z.mul_div_le j nc ltac:(lia)). pose proof (Z.mul_succ_div_gt j nc ltac:(lia)).
    split; [ | intros ->; nia ]. intros [H1 H2]. assert (k * nc <= j < (k + 1) * nc) by lia. nia.
Qed.
