(* Two-nucleon potential: C36, C37, C57, C58, C59. *)
From Coq Require Import Reals Lra.
From Verif Require Import Common PWModel PWSpec SwpModel GridSpec PotentialModel PotentialSpec.
From Verif Require PotentialPropsLemmas.
Open Scope Z_scope.

(* C36: an impossible pair stops the run; otherwise the element named by the spectroscopic notation is used.
   The last hypothesis is how the callers use the flag: "coupled" only for triplet pairs with L, L' <> J, and
   "uncoupled" only for L = L'. *)
Theorem C36_element L L' J S (coupled : bool) V : length V = 6%nat ->
  (~ (triangle L S J /\ triangle L' S J) -> extract L L' J S coupled V = Err) /\
  (triangle L S J -> triangle L' S J -> 0 <= S <= 1 ->
   (if coupled then S = 1 /\ L <> J /\ L' <> J else L = L') ->
   extract L L' J S coupled V = Ok (element (fun k => nth k V 0%R) L L' S J)).
Proof. exact (PotentialPropsLemmas.pick L L' J S coupled V). Qed.
Print Assumptions C36_element.
Example C36_example :
  extract 0 2 1 1 true [1; 2; 3; 4; 5; 6]%R = Ok (-1 * 5)%R /\
  extract 1 1 0 1 false [1; 2; 3; 4; 5; 6]%R = Ok 6%R /\
  extract 3 1 1 1 true [1; 2; 3; 4; 5; 6]%R = Err /\ triangle 0 1 1 /\ triangle 2 1 1.
Proof. unfold triangle. repeat split; try reflexivity; cbn; lia. Qed.

(* C37: Hermiticity of the two built-in models; Malfliet-Tjon acts in S waves only.
   LO_internal is limited to J <= 100 by its precomputed table (documented at start-up). *)
Theorem C37_lo_hermitian z wz qi qo cpl S J T Tz : length wz = length z -> 0 <= J <= 100 ->
  exists V W, LO_internal z wz qi qo cpl S J T Tz = Ok V /\ LO_internal z wz qo qi cpl S J T Tz = Ok W /\
    forall L L' (c : bool), 0 <= S <= 1 -> (if c then S = 1 /\ L <> J /\ L' <> J else L = L') ->
      extract L L' J S c V = extract L' L J S c W.
Proof. exact (PotentialPropsLemmas.lo_hermitian z wz qi qo cpl S J T Tz). Qed.
Print Assumptions C37_lo_hermitian.
Theorem C37_mt_hermitian qi qo cpl S J T Tz :
  exists V W, malfliet_tjon qi qo cpl S J T Tz = Ok V /\ malfliet_tjon qo qi cpl S J T Tz = Ok W /\
    forall L L' (c : bool), 0 <= S <= 1 -> (if c then S = 1 /\ L <> J /\ L' <> J else L = L') ->
      extract L L' J S c V = extract L' L J S c W /\
      (forall v, extract L L' J S c V = Ok v -> v <> 0%R -> L = 0 /\ L' = 0).
Proof. exact (PotentialPropsLemmas.mt_hermitian qi qo cpl S J T Tz). Qed.
Print Assumptions C37_mt_hermitian.
(* ... and for J > 100 the LO_internal model reads past its table. *)
Theorem C37_beyond_limit z wz qi qo cpl S J T Tz : length wz = length z -> (0 < length z)%nat -> 101 <= J ->
  LO_internal z wz qi qo cpl S J T Tz = UB.
Proof. exact (PotentialPropsLemmas.lo_beyond z wz qi qo cpl S J T Tz). Qed.
Print Assumptions C37_beyond_limit.
Example C37_example : exists V v, malfliet_tjon 1%R 2%R true 1 1 0 0 = Ok V /\ extract 0 0 1 1 true V = Ok v.
Proof. do 2 eexists. split; reflexivity. Qed.

(* C57: after the construction every matrix element of every two-nucleon channel of the table holds the wave-packet
   average of the interaction between those two partial waves, in the isospin combination of the pair, at the place
   main's other routines look it up; the routine neither fails nor writes outside.  The result does not depend on
   what the uninitialised stack array contained.  Excluded: tensor force off with J_2N_max >= 2 or isospin breaking
   (C13_refuted), and, for the mid-point rule together with isospin breaking, the 1S0 channel (C57_refuted); the 3P0
   channel is named by S = 1. *)
Theorem C57_partial gg J_2N_max two_J_3N_max iso ss tensor mid pot junk g V_unco V_coup :
  construct_symmetric_pw_states_g gg J_2N_max two_J_3N_max iso = Ok ss ->
  tensor = true \/ (tensor = false /\ iso = false /\ J_2N_max <= 1) ->
  pot_total pot (ss_states ss) -> vgrid_ok mid g ->
  length V_unco = (Z.to_nat (num_2N_unco_states tensor iso J_2N_max) * (vg_Np g * vg_Np g))%nat ->
  length V_coup = (Z.to_nat (num_2N_coup_states tensor iso J_2N_max) * (2 * vg_Np g * (2 * vg_Np g)))%nat ->
  exists V, potential_matrices tensor iso mid J_2N_max pot junk g (ss_states ss) V_unco V_coup = Ok V /\
    length (fst V) = length V_unco /\ length (snd V) = length V_coup /\
    forall r c, In r (ss_states ss) -> In c (ss_states ss) -> same_2N_channel tensor r c ->
      mid = false \/ iso = false \/ ~ (S_2N r = 0 /\ J_2N r = 0) ->
      forall i j, (i < vg_Np g)%nat -> (j < vg_Np g)%nat ->
      entry tensor iso (vg_Np g) V r c i j = Some (target mid pot g r c i j).
Proof. exact (PotentialPropsLemmas.matrices_target gg J_2N_max two_J_3N_max iso ss tensor mid pot junk g V_unco V_coup). Qed.
Print Assumptions C57_partial.
Example C57_example : vgrid_ok false (mkvgrid 1 2 [0; 1] [1; 2] [1; 1] [1; 1] [1])%R /\
  (forall states, pot_total malfliet_tjon states) /\
  exists ss, construct_symmetric_pw_states_g 0 1 1 true = Ok ss /\ (0 < length (ss_states ss))%nat.
Proof.
  split; [ unfold vgrid_ok; cbn; auto | ]. split.
  - intros states s Tz x y cpl _ _. unfold malfliet_tjon. eexists. split; [ reflexivity | ].
    destruct (J_2N s =? 0), (J_2N s =? 1); reflexivity.
  - eexists. split; [ vm_compute; reflexivity | ]. cbn. lia.
Qed.
(* With the mid-point rule and isospin breaking the 1S0 matrix is filled from the wrong elements of the model: an
   interaction acting in 1S0 only (value 1) gives a vanishing 1S0 matrix. *)
Theorem C57_refuted :
  exists ss V r, construct_symmetric_pw_states_g 0 0 1 true = Ok ss /\
    potential_matrices true true true 0 PotentialPropsLemmas.only_1S0 (0, 0)%R PotentialPropsLemmas.grid1
      (ss_states ss) [0]%R [0; 0; 0; 0]%R = Ok V /\
    In r (ss_states ss) /\ L_2N r = 0 /\ S_2N r = 0 /\ J_2N r = 0 /\
    entry true true 1 V r r 0 0 = Some 0%R /\
    target true PotentialPropsLemmas.only_1S0 PotentialPropsLemmas.grid1 r r 0 0 = 1%R.
Proof. exact PotentialPropsLemmas.midpoint_iso_wrong. Qed.
Print Assumptions C57_refuted.

(* C58: for the built-in models every two-nucleon potential matrix is symmetric, so that diagonalising from the
   upper triangle only (C29) loses nothing.  This includes the 1S0 matrix that C57_refuted finds wrong.  Excluded: tensor
   force off with J_2N_max >= 2 (C58_refuted) or isospin breaking. *)
Theorem C58_partial gg J_2N_max two_J_3N_max iso ss tensor mid pot junk g V_unco V_coup :
  construct_symmetric_pw_states_g gg J_2N_max two_J_3N_max iso = Ok ss ->
  tensor = true \/ (tensor = false /\ iso = false /\ J_2N_max <= 1) ->
  pot = malfliet_tjon \/ (exists z wz, pot = LO_internal z wz /\ length wz = length z /\ J_2N_max <= 100) ->
  vgrid_ok mid g ->
  length V_unco = (Z.to_nat (num_2N_unco_states tensor iso J_2N_max) * (vg_Np g * vg_Np g))%nat ->
  length V_coup = (Z.to_nat (num_2N_coup_states tensor iso J_2N_max) * (2 * vg_Np g * (2 * vg_Np g)))%nat ->
  exists V, potential_matrices tensor iso mid J_2N_max pot junk g (ss_states ss) V_unco V_coup = Ok V /\
    forall r c, In r (ss_states ss) -> In c (ss_states ss) -> same_2N_channel tensor r c ->
      forall i j, (i < vg_Np g)%nat -> (j < vg_Np g)%nat -> exists v,
      entry tensor iso (vg_Np g) V r c i j = Some v /\ entry tensor iso (vg_Np g) V c r j i = Some v.
Proof. exact (PotentialPropsLemmas.symmetric_matrices gg J_2N_max two_J_3N_max iso ss tensor mid pot junk g V_unco V_coup). Qed.
Print Assumptions C58_partial.
(* With the tensor force off and J_2N_max = 2 the number of a channel exceeds the number of matrices: the construction
   leaves its arrays. *)
Theorem C58_refuted : let g := PotentialPropsLemmas.grid1 in
  exists ss, construct_symmetric_pw_states_g 0 2 1 false = Ok ss /\ vgrid_ok false g /\
    length (repeat 0%R 10) = (Z.to_nat (num_2N_unco_states false false 2) * (vg_Np g * vg_Np g))%nat /\
    num_2N_coup_states false false 2 = 0 /\
    forall mid, potential_matrices false false mid 2 malfliet_tjon (0, 0)%R g (ss_states ss) (repeat 0%R 10) [] = UB.
Proof. exact PotentialPropsLemmas.notensor_outside. Qed.
Print Assumptions C58_refuted.
Example C58_example : exists z wz, LO_internal z wz = LO_internal [0]%R [2]%R /\ length wz = length z /\ 2 <= 100.
Proof. exists [0]%R, [2]%R. repeat split; lia. Qed.

(* C59: the precomputed table holds the Legendre polynomials of every degree up to L at every node, and the isospin
   factor of one-pion exchange is <tau1.tau2> = 4T-3 for the isospin allowed by the Pauli principle. *)
Theorem C59_legendre L z : (1 <= L)%nat -> exists tab, legendre_table L z = Ok tab /\
  forall d i, (d <= L)%nat -> (i < length z)%nat -> fetch_root tab (Z.of_nat d) i = Ok (P d (nth i z 0%R)).
Proof. exact (PotentialPropsLemmas.legendre_values L z). Qed.
Print Assumptions C59_legendre.
Theorem C59_isospin L S T : 0 <= T <= 1 -> Z.Odd (L + S + T) -> iso_fac L S = IZR (4 * T - 3).
Proof. exact (PotentialPropsLemmas.iso_fac_spec L S T). Qed.
Print Assumptions C59_isospin.
Example C59_example : P 2 (1 / 2) = (-1 / 8)%R /\ iso_fac 0 1 = (-3)%R /\ iso_fac 0 0 = 1%R.
Proof. split; [ unfold P; cbn; field | split; reflexivity ]. Qed.
