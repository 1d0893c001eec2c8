(* Property theorem: the wave-packet basis and the resolvent describe the same spectrum (C76). *)
From Coq Require Import Reals Lra Lia.
From Verif Require Import Common ArrayLib PWModel PWSpec SwpModel SwpSpec GridSpec KernelModel KernelSpec ResolventModel
  SwpWholeModel SwpWholeSpec SpectralSpec.
From Verif Require OnShellSpec SpectralFinal SwpWholeProps PWPropsLemmas.
Open Scope nat_scope.

(* C76: let one run of the wave-packet construction over the whole model space have returned normally (tensor force on, arrays
   as main allocates them, symmetric potential, eigensolver by contract, spectra without degeneracy or eigenvalue 0).  Then in
   every three-nucleon channel the operator C3 the kernel is built with (C38, C39) is orthogonal, it diagonalises the
   Hamiltonian of the pair, and the resolvent computed for that channel from the boundaries of the same run is, for every
   energy and every basis state (partial wave, spectator bin, pair bin), the cell value (meaning: C33) of the bin between two
   consecutive boundaries edge a i, edge a (i+1) of that partial wave (the same for all energies), which belongs to that very eigenvector: the deuteron's cell has the bound-state energy, every other one contains its eigenvalue;
   the boundaries are the midpoints between consecutive eigenvalues, and the eigenvalues are numbered in ascending order. *)
Theorem C76_resolvent_spectrum diag g J_2N_max two_J_3N_max iso ss c states Np Nq p q V C0 e0 Eb0 st energies G :
  (1 <= two_J_3N_max)%Z -> Z.Odd two_J_3N_max -> construct_symmetric_pw_states_g g J_2N_max two_J_3N_max iso = Ok ss ->
  (0 <= c < ss_N_chn ss)%Z -> channel_slice ss c = Ok states ->
  3 <= Np -> length p = Np + 1 ->
  (forall cm, length (pick cm V) = dim2 cm Np * dim2 cm Np * num_channels iso J_2N_max cm) ->
  (forall cm, length (pick cm C0) = dim2 cm Np * dim2 cm Np * num_channels iso J_2N_max cm) ->
  (forall cm, length (pick cm e0) = nbound cm Np * num_channels iso J_2N_max cm) ->
  solves diag Np p V (num_channels iso J_2N_max) -> symmetric_potential iso J_2N_max Np V ->
  make_swp_states diag true iso J_2N_max Np p (ss_states ss) V C0 e0 Eb0 = Ok st ->
  (forall cm i, is_channel iso (ss_states ss) cm i -> let w := fst (spectrum diag Np p V cm i) in
     increasing w /\ forall k, k < dim2 cm Np -> nth k w 0%R <> 0%R) ->
  length q = Nq + 1 -> length G = length energies * (length states * Np * Nq) ->
  let N := length states in
  let C3 := op3 true iso Np states (sw_C st) in
  let H3 := pair_hamiltonian iso Np states p V in
  exists (lam : state3 -> R) (edge : nat -> nat -> R),
    (forall x y, valid3 N Nq Np x -> valid3 N Nq Np y ->
       sum3 N Nq Np (fun k => C3 k x * C3 k y)%R = (if same3 Nq Np x y then 1%R else 0%R) /\
       sum3 N Nq Np (fun k => C3 x k * C3 y k)%R = (if same3 Nq Np x y then 1%R else 0%R) /\
       sum3 N Nq Np (fun k => H3 x k * C3 k y)%R = (lam y * C3 x y)%R) /\
    exists G', all_resolvents true iso Np Nq (fst (sw_e st)) (snd (sw_e st)) q states energies G = Ok G' /\ length G' = length G /\
      (forall a iq i, valid3 N Nq Np (a, iq, i) ->
         energy_of_wave_packet (nth a states dummy_pw) i (sw_Eb st) (lam (a, iq, i)) (edge a i) (edge a (i + 1))) /\
      (forall a iq, a < N -> edges_of_wave Np (nth a states dummy_pw) (fun i => lam (a, iq, i)) (edge a)) /\ ascending3 states Nq Np lam /\
      OnShellSpec.pair_boundaries iso Np (fst (sw_e st)) (snd (sw_e st)) states edge /\
      forall j E a iq i, nth_error energies j = Some E -> valid3 N Nq Np (a, iq, i) ->
          nth_error G' (j * (N * Np * Nq) + idx3 Nq Np (a, iq, i)) = Some (cell_value E (nth iq q 0%R) (nth (iq + 1) q 0%R) (edge a i) (edge a (i + 1))).
Proof.
  exact (fun H1 H2 H3 H4 H5 H6 H7 H8 H9 H10 H11 H12 H13 H14 =>
    SpectralFinal.resolvent_spectrum diag g J_2N_max two_J_3N_max iso ss c states Np Nq p q V C0 e0 Eb0 st H1 H2 H3 H4 H5 H6 H7 H8 H9 H10 H11 H12 H13 H14 energies G).
Qed.
Print Assumptions C76_resolvent_spectrum.

(* Non-vacuity: J_2N_max = 1, bins 0-1-2-3, potential -100 on the first cell of the coupled channel and t (the kinetic energy of
   the first bin) on the diagonal of its second block: spectra t, 7t, 19t and t-100, 2t, 7t, 8t, 19t, 20t. *)
Definition ex6_p : list R := [0; 1; 2; 3]%R.
Notation t := SwpWholeProps.ex_t.
Definition ex6_V : list R * list R :=
  (repeat 0%R (3 * 3 * 4),
   [-100; 0; 0; 0; 0; 0;  0; 0; 0; 0; 0; 0;  0; 0; 0; 0; 0; 0;  0; 0; 0; t; 0; 0;  0; 0; 0; 0; t; 0;  0; 0; 0; 0; 0; t])%R.
Definition ex6_diag (N : nat) (_ : list R) : list R * list R :=
  if N =? 3 then ([t; 7 * t; 19 * t], [1; 0; 0; 0; 1; 0; 0; 0; 1])%R
  else ([t - 100; 2 * t; 7 * t; 8 * t; 19 * t; 20 * t],
        [1; 0; 0; 0; 0; 0;  0; 0; 1; 0; 0; 0;  0; 0; 0; 0; 1; 0;  0; 1; 0; 0; 0; 0;  0; 0; 0; 1; 0; 0;  0; 0; 0; 0; 0; 1])%R.
Definition ex6_C0 : list R * list R := (repeat 0%R (3 * 3 * 4), repeat 0%R 36).
Definition ex6_e0 : list R * list R := (repeat 0%R 16, repeat 0%R 8).

Lemma ex6_solves : solves ex6_diag 3 ex6_p ex6_V (num_channels false 1).
Proof.
  destruct SwpWholeProps.ex_t_bounds as (B & E1 & E2). unfold ex6_p.
  intros [|] i Hi; vm_compute in Hi.
  - assert (i = 0) as -> by lia. cbn [fst snd spectrum ex6_diag dim2 Nat.mul Nat.eqb Nat.add].
    split; [ reflexivity | ]. split; [ reflexivity | ]. split; [ | split ].
    + intros a b [Hab Hb]. destruct b as [|[|[|[|[|[|b]]]]]]; [ .. | lia ]; destruct a as [|[|[|[|[|a]]]]]; try lia; cbn [nth]; lra.
    + intros x k Hx Hk.
      do 6 (destruct x as [|x]; [ do 6 (destruct k as [|k]; [ unfold sum, symmetric_of, hamiltonian, ex6_V, pick, dim2; cbn -[bin_kinetic SwpWholeProps.ex_t]; fold SwpWholeProps.ex_t; rewrite ?E1, ?E2; lra | ]); lia | ]); lia.
    + intros x k Hx Hk.
      do 6 (destruct x as [|x]; [ do 6 (destruct k as [|k]; [ unfold sum; cbn - [bin_kinetic SwpWholeProps.ex_t]; lra | ]); lia | ]); lia.
  - cbn [fst snd spectrum ex6_diag dim2 Nat.mul Nat.eqb Nat.add].
    split; [ reflexivity | ]. split; [ reflexivity | ]. split; [ | split ].
    + intros a b [Hab Hb]. destruct b as [|[|[|b]]]; [ .. | lia ]; destruct a as [|[|a]]; try lia; cbn [nth]; lra.
    + intros x k Hx Hk. do 4 (destruct i as [|i]; [
        do 3 (destruct x as [|x]; [ do 3 (destruct k as [|k]; [ unfold sum, symmetric_of, hamiltonian, ex6_V, pick, dim2; cbn -[bin_kinetic SwpWholeProps.ex_t]; fold SwpWholeProps.ex_t; rewrite ?E1, ?E2; lra | ]); lia | ]); lia | ]); lia.
    + intros x k Hx Hk. do 3 (destruct x as [|x]; [ do 3 (destruct k as [|k]; [ unfold sum; cbn - [bin_kinetic SwpWholeProps.ex_t]; lra | ]); lia | ]); lia.
Qed.
Lemma ex6_spectra cm i : let w := fst (spectrum ex6_diag 3 ex6_p ex6_V cm i) in
  increasing w /\ (forall k, k < dim2 cm 3 -> nth k w 0%R <> 0%R) /\ (if cm then one_negative w else none_negative w).
Proof.
  destruct SwpWholeProps.ex_t_bounds as (B & _ & _).
  destruct cm; cbn [fst snd spectrum ex6_diag dim2 Nat.mul Nat.eqb Nat.add]; (split; [ | split ]).
  - intros a b [Hab Hb]. cbn [length] in Hb. destruct b as [|[|[|[|[|[|b]]]]]]; [ .. | lia ]; destruct a as [|[|[|[|[|a]]]]]; try lia; cbn [nth]; lra.
  - intros k Hk. do 6 (destruct k as [|k]; [ cbn [nth]; lra | ]). lia.
  - exists 0. cbn [length nth]. split; [ lia | ]. split; [ lra | ]. intros j Hj Hj0. do 6 (destruct j as [|j]; [ cbn [nth]; try lia; lra | ]). lia.
  - intros a b [Hab Hb]. cbn [length] in Hb. destruct b as [|[|[|b]]]; [ .. | lia ]; destruct a as [|[|a]]; try lia; cbn [nth]; lra.
  - intros k Hk. do 3 (destruct k as [|k]; [ cbn [nth]; lra | ]). lia.
  - intros j Hj. cbn [length] in Hj. do 3 (destruct j as [|j]; [ cbn [nth]; lra | ]). lia.
Qed.
Lemma ex6_tables : exists ss states, construct_symmetric_pw_states_g 0 1 1 false = Ok ss /\ channel_slice ss 0 = Ok states /\ length states = 10 /\
  In (mkpw 0 1 1 0 0 1 1 1 1) (ss_states ss).
Proof. do 2 eexists. split; [ vm_compute; reflexivity | ]. split; [ vm_compute; reflexivity | ]. split; [ reflexivity | ]. cbn [ss_states In]. tauto. Qed.
Example C76_example : exists ss states st,
  construct_symmetric_pw_states_g 0 1 1 false = Ok ss /\ channel_slice ss 0 = Ok states /\ length states = 10 /\
  solves ex6_diag 3 ex6_p ex6_V (num_channels false 1) /\ symmetric_potential false 1 3 ex6_V /\
  make_swp_states ex6_diag true false 1 3 ex6_p (ss_states ss) ex6_V ex6_C0 ex6_e0 0%R = Ok st /\
  (forall cm i, is_channel false (ss_states ss) cm i -> let w := fst (spectrum ex6_diag 3 ex6_p ex6_V cm i) in
     increasing w /\ forall k, k < dim2 cm 3 -> nth k w 0%R <> 0%R).
Proof.
  destruct ex6_tables as (ss & states & Ess & Esl & Ls & Hd). exists ss, states.
  assert (L : forall cm, length (pick cm ex6_V) = dim2 cm 3 * dim2 cm 3 * num_channels false 1 cm /\
    length (pick cm ex6_C0) = dim2 cm 3 * dim2 cm 3 * num_channels false 1 cm /\ length (pick cm ex6_e0) = nbound cm 3 * num_channels false 1 cm) by (intros [|]; repeat split; reflexivity).
  assert (R := SwpWholeProps.C75_scattering_states ex6_diag 0 1 1 false ss 3 ex6_p ex6_V ex6_C0 ex6_e0 0 ltac:(lia) Ess ltac:(lia) eq_refl
    (fun cm => proj1 (L cm)) (fun cm => proj1 (proj2 (L cm))) (fun cm => proj2 (proj2 (L cm))) ex6_solves).
  cbv zeta in R. destruct R as [[(cm & i & Hch & Hbad) _]|(_ & st & Est & _)].
  - exfalso. apply Hbad. destruct (ex6_spectra cm i) as (_ & _ & S). destruct cm.
    + split; [ intros _; exact S | ]. intros ND. exfalso. apply ND. destruct Hch as (s & Hs & Em).
      assert (i = 0) as ->.
      { destruct (SpectralFinal.table_phys 0 1 1 false ss s Ess Hs) as [P J].
        destruct (PWPropsLemmas.numbering_tensor false 1 s s P P J) as (_ & (z & Ez & Bz) & _). rewrite Em in Ez, Bz. cbn [fst snd] in Ez, Bz.
        assert (z = Z.of_nat i) by congruence. change (num_2N_coup_states true false 1) with 1%Z in Bz. lia. }
      exists (mkpw 0 1 1 0 0 1 1 1 1). split; [ exact Hd | ]. split; [ reflexivity | repeat split ].
    + assert (ND : ~ is_deuteron_channel false (ss_states ss) false i).
      { intros (s & _ & Em & D). unfold matrix_of in Em. rewrite (SpectralFinal.deut_coupled false s D) in Em. discriminate. }
      split; [ tauto | intros _; exact S ].
  - exists st. split; [ exact Ess | ]. split; [ exact Esl | ]. split; [ exact Ls | ]. split; [ exact ex6_solves | split; [ | split; [ exact Est | ] ] ].
    + intros [|] i x y Hi Hx Hy; vm_compute in Hi.
      * assert (i = 0) as -> by lia. cbn [dim2] in Hx, Hy. do 6 (destruct x as [|x]; [ do 6 (destruct y as [|y]; [ reflexivity | ]); lia | ]); lia.
      * cbn [dim2] in *. do 4 (destruct i as [|i]; [ do 3 (destruct x as [|x]; [ do 3 (destruct y as [|y]; [ reflexivity | ]); lia | ]); lia | ]); lia.
    + intros cm i _. destruct (ex6_spectra cm i) as (S1 & S2 & _). exact (conj S1 S2).
Qed.
