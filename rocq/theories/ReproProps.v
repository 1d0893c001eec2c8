(* Property theorems: the result of a channel depends on the physics only (C92). *)
From Coq Require Import Reals Lra Lia Permutation Sorted String.
From Verif Require Import Common ArrayLib PWModel PWSpec SwpModel SwpSpec SparseModel GridSpec PermModel PermSpec PermWholeModel PermWholeSpec
  GeoModel GeoSpec NameModel PioModel PioSpec KernelModel KernelSpec PotentialModel PotentialSpec ResolventModel SwpWholeModel SwpWholeSpec SpectralSpec OnShellModel OnShellSpec
  FaddeevModel FaddeevSpec DetModel DenseModel PadeSpec AgsSpec ChainModel ChainSpec ReproModel ReproSpec.
From Verif Require DetermineProofs ReproProofs ReproFinal.
Open Scope nat_scope.

(* C92, the whole program: two runs on the same channel with the same input, in any two environments - other eigensolver (it
   may return other eigenvectors), linear solver and sort, other uninitialised memory, another number of threads, another
   schedule, another folder, other files on disk - either both stop with an error or both return, with the same states,
   potential, deuteron energy, energies, bins and deuteron waves, and the same amplitude at every energy at which the
   scattering equation has at most one solution. *)
Theorem C92_reproducible sixj ninej threej (sphP : Z -> Z -> R -> R) legblock legsize roots dleg xs wxs
    g J_2N_max two_J_3N_max iso mid ss c states Nq q pot vg inputs E1 E2 out1 out2 :
  let Np := vg_Np vg in let p := vg_pWP vg in
  threej_rule threej -> ninej_rule ninej -> legendre_rule sphP legblock legsize ->
  (1 <= two_J_3N_max)%Z -> Z.Odd two_J_3N_max -> construct_symmetric_pw_states_g g J_2N_max two_J_3N_max iso = Ok ss ->
  (0 <= c < ss_N_chn ss)%Z -> channel_slice ss c = Ok states ->
  (mid = false \/ iso = false) -> hermitian_model pot (ss_states ss) -> vgrid_ok mid vg -> 3 <= Np -> 1 <= Nq ->
  partition_from_zero Np p -> partition_from_zero Nq q -> (Z.of_nat (length states * Nq * Np) < 2 ^ 31)%Z ->
  mesh_in (-1) 1 roots -> mesh_in (-1) 1 xs -> length wxs = length xs ->
  let environment_ok := environment_ok legsize (length roots) (length xs) iso mid J_2N_max Nq pot vg ss c states in
  let run := channel_program sixj ninej threej legblock legsize roots dleg xs wxs iso mid J_2N_max Nq q pot vg ss c inputs in
  environment_ok E1 -> environment_ok E2 -> run E1 out1 -> run E2 out2 ->
  (out1 = Err /\ out2 = Err) \/
  exists r1 r2, out1 = Ok r1 /\ out2 = Ok r2 /\
    same_result mid pot vg Nq q states (permutation_operator sixj ninej threej sphP roots dleg xs wxs p q states Nq Np) r1 r2.
Proof.
  exact (fun H1 H2 H3 H4 H5 H6 H7 H8 H9 H10 H11 H12 H13 H14 H15 H16 H17 H18 H19 =>
    ReproFinal.reproducible sixj ninej threej sphP legblock legsize roots dleg xs wxs g J_2N_max two_J_3N_max iso mid ss c states Nq q pot vg inputs
      H1 H2 H3 H4 H5 H6 H7 H8 H9 H10 H11 H12 H13 H14 H15 H16 H17 H18 H19 E1 E2 out1 out2).
Qed.
Print Assumptions C92_reproducible.

(* C92, given the permutation matrix: the same from two lists of elements with the same matrix entries (in any order, with
   any splitting of an entry in several elements). *)
Theorem C92_channel g J_2N_max two_J_3N_max iso mid ss c states Nq q pot vg inputs
    diag sort_indexes solve mem cmem pmem junk res diag' sort_indexes' solve' mem' cmem' pmem' junk' res' :
  let Np := vg_Np vg in let p := vg_pWP vg in let D := length states * Nq * Np in
  (1 <= two_J_3N_max)%Z -> Z.Odd two_J_3N_max -> construct_symmetric_pw_states_g g J_2N_max two_J_3N_max iso = Ok ss ->
  (0 <= c < ss_N_chn ss)%Z -> channel_slice ss c = Ok states ->
  (mid = false \/ iso = false) -> hermitian_model pot (ss_states ss) -> vgrid_ok mid vg -> 3 <= Np -> 1 <= Nq ->
  partition_from_zero Nq q -> (Z.of_nat D < 2 ^ 31)%Z ->
  (forall keys, sort_indexes_contract keys (sort_indexes keys)) -> (forall keys, sort_indexes_contract keys (sort_indexes' keys)) ->
  solve_contract solve -> solve_contract solve' ->
  allocates mem -> allocates cmem -> allocates pmem -> allocates mem' -> allocates cmem' -> allocates pmem' ->
  let decomposes diag mem junk := forall V, fresh_potential mem iso mid J_2N_max pot junk vg (ss_states ss) = Ok V ->
     solves diag Np p V (num_channels iso J_2N_max) /\
     forall cm i, is_channel iso (ss_states ss) cm i -> let w := fst (spectrum diag Np p V cm i) in
       increasing w /\ forall k, k < dim2 cm Np -> nth k w 0%R <> 0%R /\ (- (Mn + Mp) < nth k w 0)%R in
  decomposes diag mem junk -> decomposes diag' mem' junk' ->
  let in_range (res : list (Z * Z * R)) := forall row col v, In (row, col, v) res -> (0 <= row < Z.of_nat D)%Z /\ (0 <= col < Z.of_nat D)%Z in
  in_range res -> in_range res' ->
  (forall i j, i < D -> j < D -> PermWholeSpec.entry res (Z.of_nat i) (Z.of_nat j) = PermWholeSpec.entry res' (Z.of_nat i) (Z.of_nat j)) ->
  let run := channel_run diag sort_indexes solve mem cmem pmem iso mid J_2N_max Nq q pot junk vg ss c inputs res in
  let run' := channel_run diag' sort_indexes' solve' mem' cmem' pmem' iso mid J_2N_max Nq q pot junk' vg ss c inputs res' in
  (run = Err /\ run' = Err) \/
  exists r1 r2, run = Ok r1 /\ run' = Ok r2 /\
    same_result mid pot vg Nq q states
      (fun P => forall i j, i < D -> j < D -> P i j = PermWholeSpec.entry res (Z.of_nat i) (Z.of_nat j)) r1 r2.
Proof.
  intros Np p D Hmx Hodd Hss Hc Hsl Hmid Hpot Hg HNp HNq Hq HD S1 S2 L1 L2 M1 M2 M3 M4 M5 M6 dec D1 D2 rng R1 R2 HP run run'.
  destruct (ReproFinal.two_runs g J_2N_max two_J_3N_max iso mid ss c states Nq q pot vg inputs Hmx Hodd Hss Hc Hsl Hmid Hpot Hg HNp HNq Hq HD
    diag sort_indexes solve mem cmem pmem junk res diag' sort_indexes' solve' mem' cmem' pmem' junk' res') as [X|(r1 & r2 & X1 & X2 & HR)].
  - unfold ReproFinal.lib_ok. auto 10.
  - unfold ReproFinal.lib_ok. auto 10.
  - exact HP.
  - left. exact X.
  - right. exists r1, r2. split; [ exact X1 | ]. split; [ exact X2 | ]. apply HR.
    + intros i j _ _. reflexivity.
    + intros Q Q' HQ HQ' x y Hx Hy. rewrite (HQ x y Hx Hy), (HQ' x y Hx Hy). reflexivity.
Qed.
Print Assumptions C92_channel.

(* C92, the physics behind it: the two specifications by which C91 describes the amplitudes determine them.  The wave packets
   of a channel are unique up to a sign for each (eigenvalues, boundaries and every vector); the permutation operator is
   unique; and so are the amplitudes at every energy where the equation has at most one solution. *)
Theorem C92_wave_packets g J_2N_max two_J_3N_max iso ss c states Nq Np p V3 Eb C1 C2 lam1 lam2 edge1 edge2 :
  (1 <= two_J_3N_max)%Z -> Z.Odd two_J_3N_max -> construct_symmetric_pw_states_g g J_2N_max two_J_3N_max iso = Ok ss ->
  (0 <= c < ss_N_chn ss)%Z -> channel_slice ss c = Ok states -> 3 <= Np -> 1 <= Nq ->
  wave_packets states Nq Np p V3 Eb C1 lam1 edge1 -> wave_packets states Nq Np p V3 Eb C2 lam2 edge2 ->
  let N := length states in
  (forall x, valid3 N Nq Np x -> lam1 x = lam2 x) /\ (forall a j, a < N -> j <= Np -> edge1 a j = edge2 a j) /\
  forall x, valid3 N Nq Np x ->
    (forall y, valid3 N Nq Np y -> C2 y x = C1 y x) \/ (forall y, valid3 N Nq Np y -> C2 y x = (- C1 y x)%R).
Proof.
  intros Hmx Hodd Hss Hc Hsl HNp HNq W1 W2 N. destruct (ReproProofs.states_ok g J_2N_max two_J_3N_max iso ss c states Hmx Hodd Hss Hc Hsl) as [Hst Hnd].
  destruct (DetermineProofs.basis_unique iso J_2N_max two_J_3N_max (nth_chn c) Nq Np states p V3 Eb Hst Hnd HNp HNq C1 C2 lam1 lam2 edge1 edge2 W1 W2) as (A & B & s & Hs & HC).
  split; [ exact A | ]. split; [ exact B | ]. intros x Hx. assert (Ix := KernelColProofs.idx3_lt N Nq Np x Hx). specialize (Hs _ Ix).
  assert (E : s (idx3 Nq Np x) = 1%R \/ s (idx3 Nq Np x) = (-1)%R).
  { assert (Z : ((s (idx3 Nq Np x) - 1) * (s (idx3 Nq Np x) + 1) = 0)%R) by (ring_simplify; lra). apply Rmult_integral in Z. destruct Z; [ left; lra | right; lra ]. }
  assert (F : forall y, valid3 N Nq Np y -> C2 y x = (s (idx3 Nq Np x) * C1 y x)%R).
  { intros y Hy. assert (Iy := KernelColProofs.idx3_lt N Nq Np y Hy). assert (X := HC _ _ Iy Ix).
    rewrite (FaddeevLink.state_of_idx N Nq Np x Hx), (FaddeevLink.state_of_idx N Nq Np y Hy) in X. exact X. }
  destruct E as [E|E]; rewrite E in F; [ left | right ]; intros y Hy; rewrite (F y Hy); ring.
Qed.
Print Assumptions C92_wave_packets.
Theorem C92_determined sixj ninej threej sphP roots dleg xs wxs g J_2N_max two_J_3N_max iso ss c states Nq Np p q V3 Eb Es bins ds P1 P2 U1 U2 C lam edge :
  (1 <= two_J_3N_max)%Z -> Z.Odd two_J_3N_max -> construct_symmetric_pw_states_g g J_2N_max two_J_3N_max iso = Ok ss ->
  (0 <= c < ss_N_chn ss)%Z -> channel_slice ss c = Ok states -> 3 <= Np -> 1 <= Nq ->
  (forall j, j < length Es -> nth j bins 0 < Nq) -> (forall i, In i ds -> i < length states /\ is_deuteron (nth i states dummy_pw)) ->
  let operator := permutation_operator sixj ninej threej sphP roots dleg xs wxs p q states Nq Np in
  operator P1 -> operator P2 ->
  amplitudes_of states Nq Np p q V3 P1 Eb Es bins ds U1 -> amplitudes_of states Nq Np p q V3 P2 Eb Es bins ds U2 ->
  wave_packets states Nq Np p V3 Eb C lam edge ->
  (forall x y, x < length states * Nq * Np -> y < length states * Nq * Np -> P1 x y = P2 x y) /\
  forall dr dc j, dr < length ds -> dc < length ds -> j < length Es ->
    ags_regular (length states * Nq * Np) (kernel_2PV states Nq Np P1 V3) (averaged_resolvent states Nq Np q C edge (nth j Es 0 + Eb)%R) ->
    nth (dr * length ds * length Es + dc * length Es + j) U1 c0 = nth (dr * length ds * length Es + dc * length Es + j) U2 c0.
Proof.
  intros Hmx Hodd Hss Hc Hsl HNp HNq Hb Hds op O1 O2 A1 A2 W.
  assert (HP := ReproFinal.operator_unique sixj ninej threej sphP roots dleg xs wxs p q states Nq Np P1 P2 HNq ltac:(lia) O1 O2). split; [ exact HP | ].
  exact (ReproProofs.amplitudes_unique g J_2N_max two_J_3N_max iso false ss c states Nq q (mkvgrid Np 0 p [] [] [] [])
    Hmx Hodd Hss Hc Hsl HNp HNq V3 P1 P2 Eb Es bins ds U1 U2 C lam edge A1 A2 HP Hb Hds W).
Qed.
Print Assumptions C92_determined.
