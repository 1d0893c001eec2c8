(* Property theorem: the amplitudes solve the scattering equation of the run's own Hamiltonian (C77). *)
From Coq Require Import Reals Lra Lia.
From Verif Require Import Common ArrayLib PWModel PWSpec SwpModel SwpSpec SparseModel GridSpec PermWholeSpec KernelModel KernelSpec ResolventModel
  SwpWholeModel SwpWholeSpec SpectralSpec FaddeevModel FaddeevSpec DetModel DenseModel PadeSpec AgsSpec.
From Verif Require OnShellSpec AgsFinal SpectralProps PermPropsLemmas.
Open Scope nat_scope.

(* C77: one run of the program on one three-nucleon channel, from the wave-packet construction to the amplitudes (tensor force
   on; arrays as main allocates them; eigensolver, index sort and linear solver by contract; potential symmetric; spectra
   without degeneracy or eigenvalue 0).  res is the list of computed elements of the permutation matrix (C72), in any order.
   Then every stage between them succeeds, and with
     C  the wave packets found by the run (orthogonal, eigenvectors of the pair Hamiltonian),
     K  = (2 P) V  with P the elements in res and V the potential, in the basis of free wave packets,
     Res j = C diag(G_j) C^T, where G_j is the cell value at energy j of the bin that belongs to each eigenvector,
   - term number n of the iterated equation is, for every elastic and every breakup element, the matrix element between wave
     packets of K (Res K)^n, and
   - the direct solver writes, for every pair of deuteron states and every energy, the matrix element between the on-shell
     deuteron wave packets of the solution T of  T = K + K Res T  (all solutions agree on these matrix elements). *)
Theorem C77_amplitudes diag g J_2N_max two_J_3N_max iso ss c states Np Nq p q V C0 e0 Eb0 st
  res idx energies G0 q_bins deuterons iu ic iu' ic' ip ip' bu ends cells :
  (* the model space, the channel, the arrays and the construction of the wave packets, as in C76 *)
  (1 <= two_J_3N_max)%Z -> Z.Odd two_J_3N_max -> construct_symmetric_pw_states_g g J_2N_max two_J_3N_max iso = Ok ss ->
  (0 <= c < ss_N_chn ss)%Z -> channel_slice ss c = Ok states ->
  3 <= Np -> 0 < Nq -> length p = Np + 1 ->
  (forall cm, length (pick cm V) = dim2 cm Np * dim2 cm Np * num_channels iso J_2N_max cm) ->
  (forall cm, length (pick cm C0) = dim2 cm Np * dim2 cm Np * num_channels iso J_2N_max cm) ->
  (forall cm, length (pick cm e0) = nbound cm Np * num_channels iso J_2N_max cm) ->
  solves diag Np p V (num_channels iso J_2N_max) -> symmetric_potential iso J_2N_max Np V ->
  make_swp_states diag true iso J_2N_max Np p (ss_states ss) V C0 e0 Eb0 = Ok st ->
  (forall cm i, is_channel iso (ss_states ss) cm i -> let w := fst (spectrum diag Np p V cm i) in
     increasing w /\ forall k, k < dim2 cm Np -> nth k w 0%R <> 0%R) ->
  (* the dimension fits an int; the permutation matrix is a list of elements inside it, sorted by column as std::sort returns it *)
  let N := length states in let D := N * Nq * Np in
  (Z.of_nat D < 2 ^ 31)%Z ->
  (forall row col v, In (row, col, v) res -> (0 <= row < Z.of_nat D)%Z /\ (0 <= col < Z.of_nat D)%Z) ->
  sort_indexes_contract (keys_col_major D (rows_of res) (cols_of res)) idx ->
  (* spectator grid, resolvent array, on-shell bins and deuteron states *)
  length q = Nq + 1 -> length G0 = length energies * (N * Np * Nq) ->
  length q_bins = length energies -> (forall i, In i q_bins -> i < Nq) -> (forall i, In i deuterons -> i < N) ->
  (* arrays allocated for the transposed and for the V C blocks *)
  mats_ok true iso J_2N_max Np (iu, ic) -> length ip = N * N -> mats_ok true iso J_2N_max Np (iu', ic') -> length ip' = N * N ->
  (* breakup elements, when requested: per energy a run of cells of the basis *)
  (bu = true -> length ends = length q_bins + 1 /\ (forall j, j < length q_bins -> nth j ends 0 <= nth (j + 1) ends 0) /\
     nth (length q_bins) ends 0 <= length cells /\ forall x, In x cells -> valid3 N Nq Np x) ->
  let C3 := op3 true iso Np states (sw_C st) in
  let Cx i j := C3 (state_of Nq Np i) (state_of Nq Np j) in
  let K := two_PV D (fun i j => entry res (Z.of_nat i) (Z.of_nat j))
                    (fun i j => op3 true iso Np states V (state_of Nq Np i) (state_of Nq Np j)) in
  exists CT VC rows' cols' vals' G,
    create_CT true iso J_2N_max Np states (fst (sw_C st)) (snd (sw_C st)) iu ic ip = Ok CT /\
    create_VC true iso J_2N_max Np states (fst V) (snd V) (fst (sw_C st)) (snd (sw_C st)) iu' ic' ip' = Ok VC /\
    apply_sort (rows_of res) (cols_of res) (vals_of res) idx = Ok (rows', cols', vals') /\
    all_resolvents true iso Np Nq (fst (sw_e st)) (snd (sw_e st)) q states energies G0 = Ok G /\
    let s := mkfsys N Nq Np CT VC (mkcsc vals' rows' (coo_to_csr cols' D)) G q_bins deuterons bu ends cells in
    let Res j := resolvent_op D Cx (fun k => nth (j * D + k) G c0) in
    (exists (lam : state3 -> R) (edge : nat -> nat -> R),
      (forall x y, valid3 N Nq Np x -> valid3 N Nq Np y ->
         sum3 N Nq Np (fun k => C3 k x * C3 k y)%R = (if same3 Nq Np x y then 1%R else 0%R) /\
         sum3 N Nq Np (fun k => pair_hamiltonian iso Np states p V x k * C3 k y)%R = (lam y * C3 x y)%R) /\
      (forall a iq i, valid3 N Nq Np (a, iq, i) ->
         energy_of_wave_packet (nth a states dummy_pw) i (sw_Eb st) (lam (a, iq, i)) (edge a i) (edge a (i + 1))) /\
      (forall a iq, a < N -> edges_of_wave Np (nth a states dummy_pw) (fun i => lam (a, iq, i)) (edge a)) /\ ascending3 states Nq Np lam /\
      OnShellSpec.pair_boundaries iso Np (fst (sw_e st)) (snd (sw_e st)) states edge /\
      forall j E a iq i, nth_error energies j = Some E -> valid3 N Nq Np (a, iq, i) ->
          nth (j * D + idx3 Nq Np (a, iq, i)) G c0 = cell_value E (nth iq q 0%R) (nth (iq + 1) q 0%R) (edge a i) (edge a (i + 1))) /\
    channel_system s true iso J_2N_max two_J_3N_max c states V (sw_C st) /\
    (forall n e, elastic s e \/ breakup s e -> term s (kernel_matrix s true iso states V (sw_C st)) n e =
       between D Cx (born_term D K (Res (e_row e mod length q_bins)) n) (row_state s (e_row e)) (e_col e)) /\
    forall solve U, solve_contract solve -> length U = length deuterons * length deuterons * length q_bins ->
      exists U', dense_solver solve s U = Ok U' /\ length U' = length U /\
        forall dr dc j, dr < length deuterons -> dc < length deuterons -> j < length q_bins -> ags_regular D K (Res j) ->
          exists T, ags_solution D K (Res j) T /\
            (forall T', ags_solution D K (Res j) T' -> forall x y, x < D -> y < D -> between D Cx T' x y = between D Cx T x y) /\
            nth (dr * length deuterons * length q_bins + dc * length q_bins + j) U' c0 =
              between D Cx T (idx3 Nq Np (nth dr deuterons 0, nth j q_bins 0, 0)) (idx3 Nq Np (nth dc deuterons 0, nth j q_bins 0, 0)).
Proof.
  exact (fun H1 H2 H3 H4 H5 H6 H7 H8 H9 H10 H11 H12 H13 H14 H15 H16 H17 H18 H19 H20 H21 H22 H23 H24 H25 H26 H27 H28 =>
    AgsFinal.amplitudes diag g J_2N_max two_J_3N_max iso ss c states Np Nq p q V C0 e0 Eb0 st H1 H2 H3 H4 H5 H6 H7 H8 H9 H10 H11 H12 H13 H14 H15
      res idx energies G0 q_bins deuterons iu ic iu' ic' ip ip' bu ends cells H16 H17 H18 H19 H20 H21 H22 H23 H24 H25 H26 H27 H28).
Qed.
Print Assumptions C77_amplitudes.

(* Non-vacuity: the run of C76_example; one element of the permutation matrix, from the deuteron wave (basis state 12) to the
   1S0 wave (basis state 0); K has the element -200 there, and the equation is uniquely solvable for every resolvent. *)
Definition ex7_res : list (Z * Z * R) := [(0, 12, 1%R)]%Z.
Lemma ex7_sort : sort_indexes_contract (keys_col_major 30 (rows_of ex7_res) (cols_of ex7_res)) [0].
Proof. split; [ apply Permutation.Permutation_refl | repeat constructor ]. Qed.
Lemma ex7_tables : exists ss states, construct_symmetric_pw_states_g 0 1 1 false = Ok ss /\ channel_slice ss 0 = Ok states /\ length states = 10 /\
  (forall a, a < 10 -> connects true (nth 4 states dummy_pw) (nth a states dummy_pw) = true -> a <> 0) /\
  (forall a, a < 10 -> a <> 0 -> connects true (nth 0 states dummy_pw) (nth a states dummy_pw) = false /\
     connects true (nth a states dummy_pw) (nth 0 states dummy_pw) = false) /\
  op3 true false 3 states SpectralProps.ex6_V (4, 0, 0) (4, 0, 0) = (-100)%R /\
  In (mkpw 0 1 1 0 0 1 1 1 1) (ss_states ss).
Proof.
  do 2 eexists. split; [ vm_compute; reflexivity | ]. split; [ vm_compute; reflexivity | ]. split; [ reflexivity | ].
  split; [ | split; [ | split; [ reflexivity | cbn [ss_states In]; tauto ] ] ].
  - intros a Ha. do 10 (destruct a as [|a]; [ vm_compute; congruence | ]). lia.
  - intros a Ha H0. do 10 (destruct a as [|a]; [ try lia; split; reflexivity | ]). lia.
Qed.
Lemma ctotal_zero f n : (forall k, k < n -> f k = c0) -> ctotal f n = c0.
Proof. induction n as [|n IH]; intros H; [ reflexivity | ]. cbn [ctotal]. rewrite IH, H by (intros; try apply H; lia). unfold c0, cadd. cbn [fst snd]. rewrite Rplus_0_r. reflexivity. Qed.
Lemma cmul_0_l' z : cmul c0 z = c0.
Proof. destruct z. unfold cmul, c0; cbn [fst snd]. f_equal; ring. Qed.
Lemma cmul_0_r' z : cmul z c0 = c0.
Proof. destruct z. unfold cmul, c0; cbn [fst snd]. f_equal; ring. Qed.
Example C77_example : exists ss states st,
  construct_symmetric_pw_states_g 0 1 1 false = Ok ss /\ channel_slice ss 0 = Ok states /\ length states * 1 * 3 = 30 /\
  make_swp_states SpectralProps.ex6_diag true false 1 3 SpectralProps.ex6_p (ss_states ss) SpectralProps.ex6_V SpectralProps.ex6_C0 SpectralProps.ex6_e0 0%R = Ok st /\
  sort_indexes_contract (keys_col_major 30 (rows_of ex7_res) (cols_of ex7_res)) [0] /\
  let Cx i j := op3 true false 3 states (sw_C st) (state_of 1 3 i) (state_of 1 3 j) in
  let K := two_PV 30 (fun i j => entry ex7_res (Z.of_nat i) (Z.of_nat j))
                     (fun i j => op3 true false 3 states SpectralProps.ex6_V (state_of 1 3 i) (state_of 1 3 j)) in
  K 0 12 = (-200)%R /\ forall g, ags_regular 30 K (resolvent_op 30 Cx g).
Proof.
  destruct SpectralProps.C76_example as (ss & states & st & Ess & Esl & Ls & _ & _ & Est & _). exists ss, states, st.
  split; [ exact Ess | ]. split; [ exact Esl | ]. split; [ rewrite Ls; reflexivity | ]. split; [ exact Est | ]. split; [ exact ex7_sort | ].
  destruct ex7_tables as (ss' & states' & Ess' & Esl' & _ & T1 & T2 & T3 & _).
  assert (ss' = ss) by congruence. subst ss'. assert (states' = states) by congruence. subst states'. clear Ess' Esl' Ess Esl Est.
  intros Cx K.
  assert (HP : forall i j, entry ex7_res (Z.of_nat i) (Z.of_nat j) = if (i =? 0) && (j =? 12) then 1%R else 0%R).
  { intros i j. cbn [ex7_res entry fold_right]. destruct i as [|i], (Nat.eqb_spec j 12) as [->|Hj]; cbn -[Z.eqb Z.of_nat].
    - cbn. ring.
    - change (Z.of_nat 0) with 0%Z. destruct (Z.eqb_spec 12 (Z.of_nat j)); [ lia | reflexivity ].
    - destruct (Z.eqb_spec 0 (Z.of_nat (S i))); [ lia | reflexivity ].
    - destruct (Z.eqb_spec 0 (Z.of_nat (S i))); [ lia | reflexivity ]. }
  assert (K0 : forall x y, x <> 0 -> K x y = 0%R).
  { intros x y Hx. unfold K, two_PV. apply PermPropsLemmas.sum_zero. intros z _. rewrite HP. destruct (Nat.eqb_spec x 0); [ contradiction | ]. cbn [andb]. ring. }
  assert (K1 : forall y, K 0 y = (2 * op3 true false 3 states SpectralProps.ex6_V (4, 0, 0)%nat (state_of 1 3 y))%R).
  { intros y. unfold K, two_PV.
    set (W := fun i j : nat => op3 true false 3 states SpectralProps.ex6_V (state_of 1 3 i) (state_of 1 3 j)).
    change (op3 true false 3 states SpectralProps.ex6_V (4, 0, 0) (state_of 1 3 y)) with (W 12 y).
    rewrite (GridPropsLemmas.sum_ext _ (fun z => if (z =? 12)%nat then 2 * W 12%nat y else 0)%R).
    - generalize (W 12 y). intros w. unfold sum; cbn -[Rmult Rplus]; ring.
    - intros z _. cbv beta. rewrite HP. change (0 =? 0) with true. cbn [andb]. destruct (Nat.eqb_spec z 12) as [->|_]; [ unfold W; ring | ring ]. }
  split; [ rewrite K1; change (state_of 1 3 12) with (4, 0, 0); rewrite T3; ring | ].
  intros g y Hy.
  assert (Hz : forall x, x < 30 -> x <> 0 -> y x = c0).
  { intros x Hx Hx0. rewrite (Hy x Hx). apply ctotal_zero. intros z Hz. rewrite (K0 x z Hx0). apply cmul_0_l'. }
  intros x Hx. destruct (Nat.eq_dec x 0) as [->|Hx0]; [ | exact (Hz x Hx Hx0) ].
  rewrite (Hy 0 Hx). apply ctotal_zero. intros z Hz30.
  destruct (connects true (nth 4 states dummy_pw) (nth (z / (1 * 3)) states dummy_pw)) eqn:Ec.
  - assert (Hz10 : z / (1 * 3) < 10) by (apply Nat.div_lt_upper_bound; lia).
    assert (Hza := T1 _ Hz10 Ec).
    replace (ctotal (fun t => cmul (resolvent_op 30 Cx g z t) (y t)) 30) with c0; [ apply cmul_0_r' | ].
    symmetry. apply ctotal_zero. intros t Ht. destruct (Nat.eq_dec t 0) as [->|Ht0]; [ | rewrite (Hz t Ht Ht0); apply cmul_0_r' ].
    replace (resolvent_op 30 Cx g z 0) with c0; [ apply cmul_0_l' | ]. symmetry. apply ctotal_zero. intros k Hk.
    replace (Cx z k * Cx 0%nat k)%R with 0%R; [ apply cmul_0_l' | ]. symmetry.
    assert (Hk10 : k / (1 * 3) < 10) by (apply Nat.div_lt_upper_bound; lia).
    unfold Cx, state_of, op3. change (0 / (1 * 3)) with 0. destruct (Nat.eq_dec (k / (1 * 3)) 0) as [E0|E0].
    + rewrite E0. rewrite (proj2 (T2 _ Hz10 Hza)), andb_false_r. ring.
    + rewrite (proj1 (T2 _ Hk10 E0)), andb_false_r. ring.
  - rewrite K1. unfold state_of, op3. rewrite Ec, andb_false_r. unfold rc. rewrite Rmult_0_r. apply cmul_0_l'.
Qed.
