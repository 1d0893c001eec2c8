(* Property theorem about the wave-packet construction as a whole (C75). *)
From Coq Require Import Reals Lra Lia.
From Verif Require Import Common ArrayLib PWModel PWSpec SwpModel SwpSpec SwpPropsLemmas GridSpec SwpWholeModel SwpWholeSpec SwpWholeFinal.
Open Scope nat_scope.

(* C75: with the tensor force on, the arrays as main allocates them and at least three momentum bins, one run over the whole
   model space either stops with the error message, and this happens exactly when some channel's spectrum has the wrong bound
   states (one negative eigenvalue in the deuteron's channel, none elsewhere), or it returns normally.  In that case, for every
   channel of the model space, the stored columns are an orthonormal eigenbasis of (kinetic energy averaged over the bins +
   potential), column k belonging to eigenvalue number [eigenvalue_no k], the stored bins enclose these eigenvalues one by
   one (non-degenerate spectrum) and lie halfway between them, and the bound-state energy is the negative eigenvalue of the deuteron's channel; cells
   of channels that do not occur keep their value (vectors) or are 0 (boundaries).  The eigensolver (LAPACKE_dspevd)
   enters through its contract [solves] on the matrices of this run. *)
Theorem C75_scattering_states diag g J_2N_max two_J_3N_max iso ss Np p V C0 e0 Eb0 :
  (1 <= two_J_3N_max)%Z -> construct_symmetric_pw_states_g g J_2N_max two_J_3N_max iso = Ok ss ->
  3 <= Np -> length p = Np + 1 ->
  (forall cm, length (pick cm V) = dim2 cm Np * dim2 cm Np * num_channels iso J_2N_max cm) ->
  (forall cm, length (pick cm C0) = dim2 cm Np * dim2 cm Np * num_channels iso J_2N_max cm) ->
  (forall cm, length (pick cm e0) = nbound cm Np * num_channels iso J_2N_max cm) ->
  solves diag Np p V (num_channels iso J_2N_max) ->
  let channel := is_channel iso (ss_states ss) in
  let deuteron := is_deuteron_channel iso (ss_states ss) in
  let w cm i := fst (spectrum diag Np p V cm i) in
  let run := make_swp_states diag true iso J_2N_max Np p (ss_states ss) V C0 e0 Eb0 in
  ((exists cm i, channel cm i /\ ~ bound_states_ok (deuteron cm i) (w cm i)) /\ run = Err) \/
  ((forall cm i, channel cm i -> i < num_channels iso J_2N_max cm /\ bound_states_ok (deuteron cm i) (w cm i)) /\
   exists st, run = Ok st /\
    (forall cm i, channel cm i ->
       let N := dim2 cm Np in
       eigenbasis N (symmetric_of (hamiltonian Np p V cm i)) (fun x k => nth (i * N * N + (x * N + k)) (pick cm (sw_C st)) 0%R)
         (fun k => nth (eigenvalue_no cm Np k) (w cm i) 0%R) /\
       channel_bins Np cm (deuteron cm i) (w cm i) (fun j => nth (i * nbound cm Np + j) (pick cm (sw_e st)) 0%R) /\
       (deuteron cm i -> (sw_Eb st < 0)%R /\ In (sw_Eb st) (w cm i))) /\
    ((forall cm i, ~ deuteron cm i) -> sw_Eb st = Eb0) /\
    (forall cm i, i < num_channels iso J_2N_max cm -> ~ channel cm i ->
       let N := dim2 cm Np in
       (forall k, k < N * N -> nth (i * N * N + k) (pick cm (sw_C st)) 0%R = nth (i * N * N + k) (pick cm C0) 0%R) /\
       (forall k, k < nbound cm Np -> nth (i * nbound cm Np + k) (pick cm (sw_e st)) 0%R = 0%R)) /\
    (forall cm i, channel cm i ->
       channel_midpoints Np cm (deuteron cm i) (w cm i) (fun j => nth (i * nbound cm Np + j) (pick cm (sw_e st)) 0%R)) /\
    (forall cm, length (pick cm (sw_C st)) = length (pick cm C0) /\ length (pick cm (sw_e st)) = length (pick cm e0))).
Proof. exact (whole_swp diag g J_2N_max two_J_3N_max iso ss Np p V C0 e0 Eb0). Qed.
Print Assumptions C75_scattering_states.

(* a case with a deuteron: J_2N_max = 1, three bins 0-1-2-3, potential -100 in the first cell of the coupled channel; the
   contract and the bound-state condition hold, so the run returns normally *)
Definition ex_t : R := bin_kinetic [0; 1; 2; 3]%R 0.
Definition ex_V : list R * list R := (repeat 0%R (3 * 3 * 4), (-100)%R :: repeat 0%R 35).
Definition ex_diag (N : nat) (_ : list R) : list R * list R :=
  let t := ex_t in
  if N =? 3 then ([t; 7 * t; 19 * t], [1; 0; 0; 0; 1; 0; 0; 0; 1])%R
  else ([t - 100; t; 7 * t; 7 * t; 19 * t; 19 * t],
        [1; 0; 0; 0; 0; 0;  0; 0; 1; 0; 0; 0;  0; 0; 0; 0; 1; 0;  0; 1; 0; 0; 0; 0;  0; 0; 0; 1; 0; 0;  0; 0; 0; 0; 0; 1])%R.
Lemma ex_t_bounds : (0 < ex_t < 1)%R /\ bin_kinetic [0; 1; 2; 3]%R 1 = (7 * ex_t)%R /\ bin_kinetic [0; 1; 2; 3]%R 2 = (19 * ex_t)%R.
Proof.
  assert (M := mu23_pos). assert (M1 : (400 < mu23)%R) by (unfold mu23, Mp, Mn; lra).
  unfold ex_t, bin_kinetic. cbn [nth Nat.add]. assert (0 < / (6 * mu23) < 1)%R.
  { split; [ apply Rinv_0_lt_compat; lra | ]. rewrite <- Rinv_1. apply Rinv_lt_contravar; lra. }
  unfold Rdiv. lra.
Qed.
Example C75_example : solves ex_diag 3 [0; 1; 2; 3]%R ex_V (num_channels false 1).
Proof.
  destruct ex_t_bounds as (B & E1 & E2).
  intros [|] i Hi; vm_compute in Hi.
  - assert (i = 0) as -> by lia. cbn [fst snd spectrum ex_diag dim2 Nat.mul Nat.eqb Nat.add].
    split; [ reflexivity | ]. split; [ reflexivity | ]. split; [ | split ].
    + intros a b [Hab Hb]. destruct b as [|[|[|[|[|[|b]]]]]]; [ .. | lia ]; destruct a as [|[|[|[|[|a]]]]]; try lia; cbn [nth]; lra.
    + intros x k Hx Hk.
      do 6 (destruct x as [|x]; [ do 6 (destruct k as [|k]; [ unfold sum, symmetric_of, hamiltonian, ex_V, pick, dim2; cbn -[bin_kinetic ex_t]; fold ex_t; rewrite ?E1, ?E2; lra | ]); lia | ]); lia.
    + intros x k Hx Hk.
      do 6 (destruct x as [|x]; [ do 6 (destruct k as [|k]; [ unfold sum; cbn - [bin_kinetic ex_t]; lra | ]); lia | ]); lia.
  - cbn [fst snd spectrum ex_diag dim2 Nat.mul Nat.eqb Nat.add].
    split; [ reflexivity | ]. split; [ reflexivity | ]. split; [ | split ].
    + intros a b [Hab Hb]. destruct b as [|[|[|b]]]; [ .. | lia ]; destruct a as [|[|a]]; try lia; cbn [nth]; lra.
    + intros x k Hx Hk. do 4 (destruct i as [|i]; [
        do 3 (destruct x as [|x]; [ do 3 (destruct k as [|k]; [ unfold sum, symmetric_of, hamiltonian, ex_V, pick, dim2; cbn -[bin_kinetic ex_t]; fold ex_t; rewrite ?E1, ?E2; lra | ]); lia | ]); lia | ]); lia.
    + intros x k Hx Hk. do 3 (destruct x as [|x]; [ do 3 (destruct k as [|k]; [ unfold sum; cbn - [bin_kinetic ex_t]; lra | ]); lia | ]); lia.
Qed.
Example C75_example_bound_states :
  bound_states_ok True (fst (spectrum ex_diag 3 [0; 1; 2; 3]%R ex_V true 0)) /\ forall i, bound_states_ok False (fst (spectrum ex_diag 3 [0; 1; 2; 3]%R ex_V false i)).
Proof.
  destruct ex_t_bounds as (B & _ & _). cbn [fst snd spectrum ex_diag dim2 Nat.mul Nat.eqb Nat.add]. split; [ | intros i ]; (split; [ | tauto ]) || (split; [ tauto | ]).
  - intros _. exists 0. cbn [length nth]. split; [ lia | ]. split; [ lra | ]. intros j Hj Hj0. do 6 (destruct j as [|j]; [ cbn [nth]; try lia; lra | ]). lia.
  - intros _ j Hj. cbn [length] in Hj. do 3 (destruct j as [|j]; [ cbn [nth]; lra | ]). lia.
Qed.
