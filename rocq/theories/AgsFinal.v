From Coq Require Import Reals Lra Lia ZifyBool.
From Verif Require Import Common ArrayLib PWModel PWSpec SwpModel SwpSpec SparseModel GridSpec GridPropsLemmas PermPropsLemmas PermWholeSpec
  KernelModel KernelSpec KernelProofs KernelColProofs KernelPropsLemmas ResolventModel
  SwpWholeModel SwpWholeSpec SpectralSpec SpectralFinal FaddeevModel FaddeevSpec FaddeevLink DetModel DenseModel PadeSpec FaddeevDirect FaddeevStatements AgsSpec AgsMatrix.
From Verif Require OnShellSpec.
Open Scope nat_scope.

Lemma entry_coo res i j : (forall e, In e res -> (0 <= fst (fst e))%Z /\ (0 <= snd (fst e))%Z) ->
  coo_elem (combine (combine (rows_of res) (cols_of res)) (vals_of res)) i j = entry res (Z.of_nat i) (Z.of_nat j).
Proof.
  induction res as [|[[r c] v] res IH]; intros H; [ reflexivity | ].
  cbn [rows_of cols_of vals_of map combine fst snd coo_elem entry fold_right] in *.
  assert (H0 := H (r, c, v) (or_introl eq_refl)). cbn [fst snd] in H0.
  specialize (IH (fun e He => H e (or_intror He))).
  change (fold_right _ 0%R (combine (combine (map (fun e : Z * Z * R => Z.to_nat (fst (fst e))) res) (map (fun e : Z * Z * R => Z.to_nat (snd (fst e))) res)) (map snd res)))
    with (coo_elem (combine (combine (rows_of res) (cols_of res)) (vals_of res)) i j).
  change (fold_right _ 0%R res) with (entry res (Z.of_nat i) (Z.of_nat j)). rewrite IH.
  replace ((Z.to_nat r =? i) && (Z.to_nat c =? j)) with ((r =? Z.of_nat i)%Z && (c =? Z.of_nat j)%Z) by lia. reflexivity.
Qed.

Lemma ctotal_ext' f g n : (forall k, k < n -> f k = g k) -> ctotal f n = ctotal g n.
Proof. induction n as [|n IH]; intros H; [ reflexivity | ]. cbn [ctotal]. rewrite IH, H by (intros; try apply H; lia). reflexivity. Qed.

Section Final.
Variables (diag : nat -> list R -> list R * list R) (g Jm mx : Z) (iso : bool) (ss : statespace) (c : Z) (states : list pw) (Np Nq : nat)
  (p q : list R) (V C0 e0 : list R * list R) (Eb0 : R) (st : swp_arrays).
Hypothesis Hmx : (1 <= mx)%Z.
Hypothesis Hodd : Z.Odd mx.
Hypothesis Hss : construct_symmetric_pw_states_g g Jm mx iso = Ok ss.
Hypothesis Hc : (0 <= c < ss_N_chn ss)%Z.
Hypothesis Hsl : channel_slice ss c = Ok states.
Hypothesis HNp : 3 <= Np.
Hypothesis HNq : 0 < Nq.
Hypothesis Lp : length p = Np + 1.
Hypothesis LV : forall cm, length (pick cm V) = dim2 cm Np * dim2 cm Np * num_channels iso Jm cm.
Hypothesis LC : forall cm, length (pick cm C0) = dim2 cm Np * dim2 cm Np * num_channels iso Jm cm.
Hypothesis Le : forall cm, length (pick cm e0) = nbound cm Np * num_channels iso Jm cm.
Hypothesis Hdiag : solves diag Np p V (num_channels iso Jm).
Hypothesis Hsym : symmetric_potential iso Jm Np V.
Hypothesis Hrun : make_swp_states diag true iso Jm Np p (ss_states ss) V C0 e0 Eb0 = Ok st.
Hypothesis Hnd : forall cm i, is_channel iso (ss_states ss) cm i ->
  increasing (fst (spectrum diag Np p V cm i)) /\ forall k, k < dim2 cm Np -> nth k (fst (spectrum diag Np p V cm i)) 0%R <> 0%R.
Notation N := (length states).
Notation D := (length states * Nq * Np).
Variables (res : list (Z * Z * R)) (idx : list nat) (energies : list R) (G0 : list cdouble) (qs ds : list nat)
  (iu ic iu' ic' : list R) (ip ip' : list ptr) (bu : bool) (ends : list nat) (cells : list (nat * nat * nat)).
Hypothesis HD : (Z.of_nat D < 2 ^ 31)%Z.
Hypothesis Hres : forall row col v, In (row, col, v) res -> (0 <= row < Z.of_nat D)%Z /\ (0 <= col < Z.of_nat D)%Z.
Hypothesis Hidx : sort_indexes_contract (keys_col_major D (rows_of res) (cols_of res)) idx.
Hypothesis Lq : length q = Nq + 1.
Hypothesis LG : length G0 = length energies * (N * Np * Nq).
Hypothesis Lqs : length qs = length energies.
Hypothesis Hqs : forall i, In i qs -> i < Nq.
Hypothesis Hds : forall i, In i ds -> i < N.
Hypothesis Hi1 : mats_ok true iso Jm Np (iu, ic).
Hypothesis Hi2 : length ip = N * N.
Hypothesis Hi3 : mats_ok true iso Jm Np (iu', ic').
Hypothesis Hi4 : length ip' = N * N.
Hypothesis Hbu : bu = true -> length ends = length qs + 1 /\ (forall j, j < length qs -> nth j ends 0 <= nth (j + 1) ends 0) /\
  nth (length qs) ends 0 <= length cells /\ forall x, In x cells -> valid3 N Nq Np x.
Let Cx i j := op3 true iso Np states (sw_C st) (state_of Nq Np i) (state_of Nq Np j).
Let Vx i j := op3 true iso Np states V (state_of Nq Np i) (state_of Nq Np j).
Let P i j := entry res (Z.of_nat i) (Z.of_nat j).
Let K := two_PV D P Vx.

Lemma sum3_sum (f : state3 -> R) : sum3 N Nq Np f = sum (fun k => f (state_of Nq Np k)) D.
Proof. rewrite <- sum3_flat. apply sum3_ext'. intros x Hx. rewrite (state_of_idx N) by exact Hx. reflexivity. Qed.

Lemma kernel_form Pc : (forall i j, i < D -> j < D -> csc_elem Pc i j = P i j) -> forall x y, x < D -> y < D ->
  kernel N Nq Np (op3 true iso Np states (sw_C st)) (op3 true iso Np states V) Pc (state_of Nq Np x) (state_of Nq Np y) =
  sum (fun i => sum (fun j => Cx i x * K i j * Cx j y)%R D) D.
Proof.
  intros HP x y Hx Hy. unfold kernel. rewrite sum3_sum. apply sum_ext. intros i Hi.
  assert (Si := state_of_valid N Nq Np i ltac:(lia) HNq Hi).
  etransitivity; [ apply sum3_sum | ]. 
  transitivity (sum (fun j => sum (fun k => Cx i x * (2 * P i j) * (Vx j k * Cx k y))%R D) D).
  - apply sum_ext. intros j Hj. assert (Sj := state_of_valid N Nq Np j ltac:(lia) HNq Hj). rewrite (proj2 Si), (proj2 Sj), HP by assumption.
    rewrite sum3_sum. rewrite <- sum_scal. reflexivity.
  - rewrite PotentialSymProofs.sum_comm. apply sum_ext. intros k Hk. unfold K, two_PV.
    transitivity (sum (fun j => Cx i x * Cx k y * (2 * P i j * Vx j k))%R D); [ apply sum_ext; intros j _; ring | ].
    rewrite sum_scal. ring.
Qed.

Lemma amplitudes : exists CT VC rows' cols' vals' G,
  create_CT true iso Jm Np states (fst (sw_C st)) (snd (sw_C st)) iu ic ip = Ok CT /\
  create_VC true iso Jm Np states (fst V) (snd V) (fst (sw_C st)) (snd (sw_C st)) iu' ic' ip' = Ok VC /\
  apply_sort (rows_of res) (cols_of res) (vals_of res) idx = Ok (rows', cols', vals') /\
  all_resolvents true iso Np Nq (fst (sw_e st)) (snd (sw_e st)) q states energies G0 = Ok G /\
  let s := mkfsys N Nq Np CT VC (mkcsc vals' rows' (coo_to_csr cols' D)) G qs ds bu ends cells in
  let Res j := resolvent_op D Cx (fun k => nth (j * D + k) G c0) in
  (exists (lam : state3 -> R) (edge : nat -> nat -> R),
    (forall x y, valid3 N Nq Np x -> valid3 N Nq Np y ->
       let C3 := op3 true iso Np states (sw_C st) in
       sum3 N Nq Np (fun k => C3 k x * C3 k y)%R = (if same3 Nq Np x y then 1%R else 0%R) /\
       sum3 N Nq Np (fun k => pair_hamiltonian iso Np states p V x k * C3 k y)%R = (lam y * C3 x y)%R) /\
    (forall a iq i, valid3 N Nq Np (a, iq, i) ->
       energy_of_wave_packet (nth a states dummy_pw) i (sw_Eb st) (lam (a, iq, i)) (edge a i) (edge a (i + 1))) /\
    (forall a iq, a < N -> edges_of_wave Np (nth a states dummy_pw) (fun i => lam (a, iq, i)) (edge a)) /\ ascending3 states Nq Np lam /\
    OnShellSpec.pair_boundaries iso Np (fst (sw_e st)) (snd (sw_e st)) states edge /\
    forall j E a iq i, nth_error energies j = Some E -> valid3 N Nq Np (a, iq, i) ->
        nth (j * D + idx3 Nq Np (a, iq, i)) G c0 = cell_value E (nth iq q 0%R) (nth (iq + 1) q 0%R) (edge a i) (edge a (i + 1))) /\
  channel_system s true iso Jm mx c states V (sw_C st) /\
  (forall n e, elastic s e \/ breakup s e -> term s (kernel_matrix s true iso states V (sw_C st)) n e =
     between D Cx (born_term D K (Res (e_row e mod length qs)) n) (row_state s (e_row e)) (e_col e)) /\
  forall solve U, solve_contract solve -> length U = length ds * length ds * length qs ->
    exists U', dense_solver solve s U = Ok U' /\ length U' = length U /\
      forall dr dc j, dr < length ds -> dc < length ds -> j < length qs -> ags_regular D K (Res j) ->
        exists T, ags_solution D K (Res j) T /\
          (forall T', ags_solution D K (Res j) T' -> forall x y, x < D -> y < D -> between D Cx T' x y = between D Cx T x y) /\
          nth (dr * length ds * length qs + dc * length qs + j) U' c0 =
            between D Cx T (idx3 Nq Np (nth dr ds 0, nth j qs 0, 0)) (idx3 Nq Np (nth dc ds 0, nth j qs 0, 0)).
Proof.
  assert (HC : mats_ok true iso Jm Np (sw_C st)).
  { apply (mats_of Jm iso Np). intros cm. apply (run_facts diag g Jm mx iso ss Np p V C0 e0 Eb0 st Hmx Hss HNp Lp LV LC Le Hdiag Hrun). }
  assert (HV : mats_ok true iso Jm Np V) by (apply (mats_of Jm iso Np); exact LV).
  destruct (both_ok g Jm mx iso ss c states true Np V (sw_C st) Hmx Hodd Hss Hc Hsl (or_introl eq_refl) HV HC iu ic ip iu' ic' ip' Hi1 Hi2 Hi3 Hi4) as (CT & VC & ECT & EVC & _).
  assert (Hrw : forall r, In r (rows_of res) -> r < D).
  { intros r Hr. apply in_map_iff in Hr. destruct Hr as ([[a b] v] & <- & Hi). destruct (Hres a b v Hi). cbn [fst snd]. lia. }
  assert (Hcl : forall r, In r (cols_of res) -> r < D).
  { intros r Hr. apply in_map_iff in Hr. destruct Hr as ([[a b] v] & <- & Hi). destruct (Hres a b v Hi). cbn [fst snd]. lia. }
  destruct (p123_csc D (rows_of res) (cols_of res) (vals_of res) idx) as (rows' & cols' & vals' & Es & Hcsc & HPe);
    [ unfold rows_of, cols_of; rewrite !map_length; reflexivity | unfold rows_of, vals_of; rewrite !map_length; reflexivity | exact HD | exact Hrw | exact Hcl | exact Hidx | ].
  destruct (resolvent_spectrum diag g Jm mx iso ss c states Np Nq p q V C0 e0 Eb0 st Hmx Hodd Hss Hc Hsl HNp Lp LV LC Le Hdiag Hsym Hrun Hnd energies G0 Lq LG)
    as (lam & edge & S1 & G & EG & LG' & HW & HM & HO & HPB & HG).
  exists CT, VC, rows', cols', vals', G. do 4 (split; [ assumption | ]). intros s Res. split; [ | ].
  { exists lam, edge. split; [ | split; [ exact HW | ]; split; [ exact HM | ]; split; [ exact HO | ]; split; [ exact HPB | ] ].
    - intros x y Hx Hy. destruct (S1 x y Hx Hy) as (A1 & _ & A3). split; assumption.
    - intros j E a iq i HE Hv. assert (EW := HG j E a iq i HE Hv).
      apply (nth_error_nth _ _ c0). rewrite <- EW. f_equal. lia. }
  assert (Sys : channel_system s true iso Jm mx c states V (sw_C st)).
  { constructor; try assumption.
    - exists g, ss. auto.
    - left; reflexivity.
    - split; [ reflexivity | ]. split; [ exists iu, ic, ip | exists iu', ic', ip' ]; auto.
    - unfold inputs_ok. cbn [s_Np s_Nq s_P s_G s_q s_d s_breakup s_ends s_cells s_N s]. split; [ lia | ]. split; [ exact HNq | ].
      split; [ exact Hcsc | ]. split; [ rewrite LG', LG, <- Lqs; unfold s_nq, s_D; cbn [s_q s_N s_Nq s_Np s]; lia | ]. split; [ exact Hqs | ]. split; [ exact Hds | exact Hbu ]. }
  set (A := kernel_matrix s true iso states V (sw_C st)).
  assert (HPe' : forall i j, i < D -> j < D -> csc_elem (mkcsc vals' rows' (coo_to_csr cols' D)) i j = P i j).
  { intros i j Hi Hj. rewrite HPe by assumption. apply entry_coo. intros [[a b] v] He. destruct (Hres a b v He). cbn [fst snd]. lia. }
  assert (HA : forall x y, x < D -> y < D -> A x y = sum (fun i => sum (fun j => Cx i x * K i j * Cx j y)%R D) D).
  { intros x y Hx Hy. apply (kernel_form _ HPe' x y Hx Hy). }
  assert (Orow : forall x y, x < D -> y < D -> sum (fun k => Cx x k * Cx y k)%R D = if x =? y then 1%R else 0%R).
  { intros x y Hx Hy. destruct (state_of_valid N Nq Np x ltac:(lia) HNq Hx) as [Vx' Ex]. destruct (state_of_valid N Nq Np y ltac:(lia) HNq Hy) as [Vy Ey].
    destruct (S1 _ _ Vx' Vy) as (_ & E & _). unfold same3 in E. rewrite Ex, Ey in E. rewrite <- E. unfold Cx. symmetry. apply (sum3_sum (fun k => _ * _)%R). }
  assert (Ocol : forall x y, x < D -> y < D -> sum (fun k => Cx k x * Cx k y)%R D = if x =? y then 1%R else 0%R).
  { intros x y Hx Hy. destruct (state_of_valid N Nq Np x ltac:(lia) HNq Hx) as [Vx' Ex]. destruct (state_of_valid N Nq Np y ltac:(lia) HNq Hy) as [Vy Ey].
    destruct (S1 _ _ Vx' Vy) as (E & _ & _). unfold same3 in E. rewrite Ex, Ey in E. rewrite <- E. unfold Cx. symmetry. apply (sum3_sum (fun k => _ * _)%R). }
  assert (Hpos : forall d j, d < length ds -> j < length qs -> idx3 Nq Np (nth d ds 0, nth j qs 0, 0) < D).
  { intros d j Hd Hj. apply idx3_lt. repeat split; [ apply Hds, nth_In; exact Hd | apply Hqs, nth_In; exact Hj | lia ]. }
  assert (ED : D = 0 \/ exists D', D = S D') by (destruct D; eauto).
  split; [ exact Sys | ]. split.
  - intros n e He.
    assert (B : row_state s (e_row e) < D /\ e_col e < D).
    { destruct He as [He|He].
      - destruct (el_lt s true iso Jm mx c states V (sw_C st) Sys e (proj1 (elastic_in s true iso Jm mx c states V (sw_C st) Sys e) He)) as (B1 & B2 & _). exact (conj B1 B2).
      - destruct (bu_lt s true iso Jm mx c states V (sw_C st) Sys e (proj1 (breakup_in s true iso Jm mx c states V (sw_C st) Sys e) He)) as (B1 & B2 & _). exact (conj B1 B2). }
    destruct B as [H1 H2]. unfold term. destruct ED as [ED|[D' ED]]; [ lia | ].
    change (s_D s) with D. unfold row_G. change (s_nq s) with (length qs). change (s_D s) with D. change (s_G s) with G. unfold Res.
    revert H1 H2. generalize (row_state s (e_row e)) (e_col e). intros x y H1 H2.
    generalize (fun k : nat => nth (e_row e mod length qs * D + k) G c0). intros gg. revert HA Orow Ocol H1 H2. fold A. generalize A K Cx. rewrite ED. intros A' K' C' HA Orow Ocol H1 H2.
    exact (@born_neumann D' C' K' A' gg HA n x y H1 H2).
  - intros solve U Hsolve LU.
    assert (Hreg' : forall j, j < length qs -> ags_regular D K (Res j) -> faddeev_regular (s_D s) A (fun k => nth (j * s_D s + k) (s_G s) c0)).
    { intros j Hj Hreg. change (s_D s) with D. change (s_G s) with G. destruct ED as [ED|[D' ED]]; [ intros y Hy r Hr; lia | ].
      unfold Res in Hreg. revert Hreg. generalize (fun k : nat => nth (j * D + k) G c0). revert HA Orow Ocol. generalize A K Cx. rewrite ED. intros A' K' C' HA Orow Ocol gg Hr'.
      exact (@reg_to_faddeev D' C' K' A' gg Ocol Orow HA Hr'). }
    destruct (st_direct s true iso Jm mx c states V (sw_C st) Sys solve U Hsolve LU) as (U' & EU & LU' & HU).
    exists U'. split; [ exact EU | ]. split; [ exact LU' | ]. intros dr dc j Hdr Hdc Hj Hreg.
    destruct (HU dr dc j Hdr Hdc Hj (Hreg' j Hj Hreg)) as (X & HX & HXu & EX). clear Hreg Hreg'. cbv zeta in HX, HXu. fold A in HX, HXu. change (s_D s) with D in HX, HXu. change (s_G s) with G in HX, HXu.
    cbn [s_Nq s_Np s_d s_q s] in EX. unfold s_nd, s_nq in EX. cbn [s_d s_q s] in EX.
    assert (H1 := Hpos dr j Hdr Hj). assert (H2 := Hpos dc j Hdc Hj). destruct ED as [ED|[D' ED]]; [ lia | ]. rewrite EX. clear EX HU.
    revert H1 H2. generalize (idx3 Nq Np (nth dr ds 0, nth j qs 0, 0)) (idx3 Nq Np (nth dc ds 0, nth j qs 0, 0)). intros x y H1 H2. unfold Res.
    revert HX HXu. generalize (fun k : nat => nth (j * D + k) G c0). intros gg.
    revert HA Orow Ocol H1 H2. generalize A K Cx. rewrite ED. intros A' K' C' HA Orow Ocol H1 H2 HX HXu.
    exists (@back D' C' X). split; [ exact (@faddeev_to_ags D' C' K' A' gg Ocol Orow HA X HX) | ]. split.
    + intros T' HT' a b Ha Hb. rewrite (@back_between D' C' Ocol X a b Ha Hb). exact (HXu _ (@ags_to_faddeev D' C' K' A' gg HA T' HT') a b Ha Hb).
    + symmetry. exact (@back_between D' C' Ocol X x y H1 H2).
Qed.
End Final.
