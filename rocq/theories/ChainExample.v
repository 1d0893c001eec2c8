(* A concrete run for C91: a toy Hermitian interaction whose potential matrices are those of C76_example. *)
From Coq Require Import Reals Lra Lia Permutation Sorted ZifyBool.
From Verif Require Import Common ArrayLib PWModel PWSpec PWProofs PWChnProofs PWPropsLemmas SwpModel SwpSpec SparseModel GridSpec PermWholeSpec
  KernelModel KernelSpec PotentialModel PotentialSpec ResolventModel SwpWholeModel SwpWholeSpec SpectralSpec OnShellModel OnShellSpec OnShellPropsLemmas
  FaddeevModel FaddeevSpec FaddeevLink DetModel DenseModel PadeSpec AgsSpec ChainModel ChainSpec ChainProofs ChainProps.
From Verif Require PermSpec GeoModel GeoSpec GeoProps DetExists OnShellProofs SpectralProps AgsProps PermPropsLemmas SwpWholeProps SpectralFinal.
Open Scope nat_scope.

(* ---- a stable index sort ---- *)
Fixpoint ins (keys : list Z) (i : nat) (l : list nat) : list nat :=
  match l with
  | [] => [i]
  | j :: l' => if (nth i keys 0 <=? nth j keys 0)%Z then i :: j :: l' else j :: ins keys i l'
  end.
Definition isort (keys : list Z) : list nat := fold_right (ins keys) [] (seq 0 (length keys)).
Lemma ins_perm keys i l : Permutation (ins keys i l) (i :: l).
Proof. induction l as [|j l IH]; cbn [ins]; [ reflexivity | ]. destruct (_ <=? _)%Z; [ reflexivity | ]. rewrite IH. apply perm_swap. Qed.
Lemma ins_sorted keys i l : let le a b := (nth a keys 0 <= nth b keys 0)%Z in StronglySorted le l -> StronglySorted le (ins keys i l).
Proof.
  intros le. induction l as [|j l IH]; intros H; cbn [ins]; [ repeat constructor | ]. inversion H as [|? ? Hl Hj]; subst.
  destruct (Z.leb_spec (nth i keys 0%Z) (nth j keys 0%Z)) as [Hle|Hlt].
  - constructor; [ exact H | ]. constructor; [ exact Hle | ]. rewrite Forall_forall in Hj |- *. intros x Hx. specialize (Hj x Hx). unfold le in *. lia.
  - constructor; [ apply IH; exact Hl | ]. rewrite Forall_forall in Hj |- *. intros x Hx. apply (Permutation_in _ (ins_perm keys i l)) in Hx.
    destruct Hx as [<-|Hx]; [ unfold le; lia | apply Hj; exact Hx ].
Qed.
Lemma isort_ok keys : sort_indexes_contract keys (isort keys).
Proof.
  unfold isort. split.
  - induction (seq 0 (length keys)) as [|i l IH]; cbn [fold_right]; [ constructor | ]. rewrite ins_perm, IH. reflexivity.
  - induction (seq 0 (length keys)) as [|i l IH]; cbn [fold_right]; [ constructor | ]. apply ins_sorted, IH.
Qed.

(* ---- the interaction: -100 MeV on the lowest 3S1 packet, t on the 3D1 packets ---- *)
Notation t := SwpWholeProps.ex_t.
Definition l1 (x : R) : R := ((x - 2) * (x - 3) / 2)%R.
Definition l2 (x : R) : R := (- ((x - 1) * (x - 3)))%R.
Definition l3 (x : R) : R := ((x - 1) * (x - 2) / 2)%R.
Definition ex9_pot : potmodel := fun x y _ S J _ _ =>
  if ((S =? 1) && (J =? 1))%Z then Ok [0; 0; -100 * l1 x * l1 y; 0; 0; t * (l1 x * l1 y + l2 x * l2 y + l3 x * l3 y)]%R
  else Ok [0; 0; 0; 0; 0; 0]%R.
Definition ex9_vg : vgrid := mkvgrid 3 1 [0; 1; 2; 3]%R [1; 2; 3]%R [] [1; 1 / 2; 1 / 3]%R [1; 1; 1]%R.
Definition ex9_mem (k n : nat) : list R := repeat 7%R n.
Definition ex9_cmem (k n : nat) : list cdouble := repeat (7, 7)%R n.
Definition ex9_pmem (k n : nat) : list ptr := repeat (Some (true, 2%Z)) n.

Lemma ex9_hermitian states : hermitian_model ex9_pot states.
Proof.
  intros s Tz x y cpl _. unfold ex9_pot. destruct ((S_2N s =? 1) && (J_2N s =? 1))%Z; do 2 eexists; (split; [ reflexivity | ]); (split; [ reflexivity | ]);
    (split; [ reflexivity | ]); (split; [ reflexivity | ]); (split; [ | split; reflexivity ]);
    intros k Hk H3 H4; do 6 (destruct k as [|k]; [ cbn [nth]; try lia; ring | ]); lia.
Qed.
Lemma ex9_grid : vgrid_ok true ex9_vg.
Proof. repeat split; try reflexivity; discriminate. Qed.

Lemma ex9_values V ss : construct_symmetric_pw_states_g 0 1 1 false = Ok ss ->
  (forall cm, length (pick cm V) = dim2 cm 3 * dim2 cm 3 * num_channels false 1 cm) ->
  (forall r c i j, In r (ss_states ss) -> In c (ss_states ss) -> same_2N_channel true r c -> i < 3 -> j < 3 ->
     entry true false 3 V r c i j = Some (target true ex9_pot ex9_vg r c i j)) ->
  V = SpectralProps.ex6_V.
Proof.
  intros Hss HL HV.
  assert (Hin : forall cm i b, i < num_channels false 1 cm -> b < 2 -> In (rep false cm i b) (ss_states ss)).
  { intros cm i b Hi Hb. destruct (construct_g_inv _ _ _ _ _ Hss) as [_ ->]. apply PWChnProofs.in_tables. apply (rep_ok false 1 cm i b); [ lia | exact Hi | exact Hb ]. }
  assert (LU := HL false). assert (LC := HL true). destruct V as [U C]. cbn [pick fst snd] in LU, LC.
  change (dim2 false 3 * dim2 false 3 * num_channels false 1 false) with 36 in LU. change (dim2 true 3 * dim2 true 3 * num_channels false 1 true) with 36 in LC.
  assert (HU : forall i a b, i < 4 -> a < 3 -> b < 3 -> nth (i * 9 + a * 3 + b) U 0%R = nth (i * 9 + a * 3 + b) (fst SpectralProps.ex6_V) 0%R).
  { intros i a b Hi Ha Hb. assert (Hr : In (rep false false i 0) (ss_states ss)) by (apply Hin; [ exact Hi | lia ]).
    assert (E := HV _ _ a b Hr Hr ltac:(repeat split; left; reflexivity) Ha Hb). unfold entry in E.
    rewrite (proj1 (proj2 (rep_ok false 1 false i 0 ltac:(lia) Hi ltac:(lia)))) in E. cbn [fst] in E. rewrite Nat2Z.id in E. unfold unco_addr in E.
    apply (nth_error_nth _ _ 0%R) in E. change (3 * 3) with 9 in E. rewrite E. clear E.
    do 4 (destruct i as [|i]; [ do 3 (destruct a as [|a]; [ do 3 (destruct b as [|b]; [
       cbv -[Rplus Rmult Rinv Ropp IZR Rdiv sqrt Rminus SwpWholeProps.ex_t]; lra | ]); lia | ]); lia | ]); lia. }
  assert (HC : forall br a bc b, br < 2 -> a < 3 -> bc < 2 -> b < 3 -> nth ((br * 3 + a) * 6 + (bc * 3 + b)) C 0%R = nth ((br * 3 + a) * 6 + (bc * 3 + b)) (snd SpectralProps.ex6_V) 0%R).
  { intros br a bc b Hbr Ha Hbc Hb. assert (H0 : 0 < num_channels false 1 true) by (vm_compute; lia).
    assert (Hr := Hin true 0 br H0 Hbr). assert (Hc := Hin true 0 bc H0 Hbc).
    assert (Sc : same_2N_channel true (rep false true 0 br) (rep false true 0 bc)).
    { destruct br as [|[|br]], bc as [|[|bc]]; try lia; repeat split; first [ left; reflexivity | right; split; [ reflexivity | exists 1%Z; reflexivity ] ]. }
    assert (E := HV _ _ a b Hr Hc Sc Ha Hb). unfold entry in E.
    destruct (rep_ok false 1 true 0 br ltac:(lia) H0 Hbr) as (_ & M1 & B1). destruct (rep_ok false 1 true 0 bc ltac:(lia) H0 Hbc) as (_ & _ & B2).
    rewrite M1, (B1 eq_refl), (B2 eq_refl) in E. cbn [snd] in E. unfold coup_addr in E. apply (nth_error_nth _ _ 0%R) in E.
    replace (Z.to_nat (Z.of_nat 0) * (2 * 3 * (2 * 3)) + (br * 3 + a) * (2 * 3) + (bc * 3 + b)) with ((br * 3 + a) * 6 + (bc * 3 + b)) in E by (cbn; lia). rewrite E. clear E.
    do 2 (destruct br as [|br]; [ do 3 (destruct a as [|a]; [ do 2 (destruct bc as [|bc]; [ do 3 (destruct b as [|b]; [
       cbv -[Rplus Rmult Rinv Ropp IZR Rdiv sqrt Rminus SwpWholeProps.ex_t]; lra | ]); lia | ]); lia | ]); lia | ]); lia. }
  assert (E1 : U = fst SpectralProps.ex6_V).
  { apply (nth_ext _ _ 0%R 0%R); [ rewrite LU; reflexivity | ]. rewrite LU. intros n Hn.
    do 36 (destruct n as [|n]; [ match goal with |- nth ?n _ _ = _ => let i := eval compute in (n / 9) in let a := eval compute in (n mod 9 / 3) in let b := eval compute in (n mod 3) in
      exact (HU i a b ltac:(lia) ltac:(lia) ltac:(lia)) end | ]). lia. }
  assert (E2 : C = snd SpectralProps.ex6_V).
  { apply (nth_ext _ _ 0%R 0%R); [ rewrite LC; reflexivity | ]. rewrite LC. intros n Hn.
    do 36 (destruct n as [|n]; [ match goal with |- nth ?n _ _ = _ => let br := eval compute in (n / 18) in let a := eval compute in (n mod 18 / 6) in
       let bc := eval compute in (n mod 6 / 3) in let b := eval compute in (n mod 3) in
      exact (HC br a bc b ltac:(lia) ltac:(lia) ltac:(lia) ltac:(lia)) end | ]). lia. }
  rewrite E1, E2. reflexivity.
Qed.

(* ---- the permutation matrix: one element, from the deuteron wave (4) in spectator bin 1 to the 1S0 wave (0) in bin 0 ---- *)
Definition ex9_res : list (Z * Z * R) := [(0, 27, 1%R)]%Z.
Definition ex9_q : list R := [0; 1; 2]%R.
Definition ex9_run (solve : solve_t) (ss : statespace) (inputs : list R) : outcome chan_result :=
  channel_run SpectralProps.ex6_diag isort solve ex9_mem ex9_cmem ex9_pmem false true 1 2 ex9_q ex9_pot (0, 0)%R ex9_vg ss 0 inputs ex9_res.
Definition ex9_K (states : list pw) : nat -> nat -> R :=
  two_PV 60 (fun i j => PermWholeSpec.entry ex9_res (Z.of_nat i) (Z.of_nat j))
    (fun i j => potential3 true ex9_pot ex9_vg states (state_of 2 3 i) (state_of 2 3 j)).

Lemma ex9_part : partition_from_zero 2 ex9_q.
Proof.
  split; [ reflexivity | ]. split; [ reflexivity | ]. intros i j [H1 H2]. destruct j as [|[|[|j]]]; try lia; destruct i as [|[|i]]; try lia; unfold ex9_q; cbn [nth]; lra.
Qed.
Lemma ex9_P i j : PermWholeSpec.entry ex9_res (Z.of_nat i) (Z.of_nat j) = if (i =? 0) && (j =? 27) then 1%R else 0%R.
Proof.
  cbn [ex9_res PermWholeSpec.entry fold_right]. destruct i as [|i], (Nat.eqb_spec j 27) as [->|Hj]; cbn -[Z.eqb Z.of_nat].
  - cbn. ring.
  - change (Z.of_nat 0) with 0%Z. destruct (Z.eqb_spec 27 (Z.of_nat j)); [ lia | reflexivity ].
  - destruct (Z.eqb_spec 0 (Z.of_nat (S i))); [ lia | reflexivity ].
  - destruct (Z.eqb_spec 0 (Z.of_nat (S i))); [ lia | reflexivity ].
Qed.
Lemma ex9_K0 states x y : x <> 0 -> ex9_K states x y = 0%R.
Proof. intros Hx. unfold ex9_K, two_PV. apply PermPropsLemmas.sum_zero. intros z _. rewrite ex9_P. destruct (Nat.eqb_spec x 0); [ contradiction | ]. cbn [andb]. ring. Qed.
Lemma ex9_K1 states y : ex9_K states 0 y = (2 * potential3 true ex9_pot ex9_vg states (4, 1, 0)%nat (state_of 2 3 y))%R.
Proof.
  unfold ex9_K, two_PV. set (W := fun i j : nat => potential3 true ex9_pot ex9_vg states (state_of 2 3 i) (state_of 2 3 j)).
  change (potential3 true ex9_pot ex9_vg states (4, 1, 0) (state_of 2 3 y)) with (W 27 y).
  rewrite (GridPropsLemmas.sum_ext _ (fun z => if (z =? 27)%nat then 2 * W 27%nat y else 0)%R).
  - generalize (W 27 y). intros w. unfold sum; cbn -[Rmult Rplus]; ring.
  - intros z _. cbv beta. rewrite ex9_P. change (0 =? 0) with true. cbn [andb]. destruct (Nat.eqb_spec z 27) as [->|_]; [ unfold W; ring | ring ].
Qed.
(* the equation is uniquely solvable, whatever the wave packets and the resolvent *)
Lemma ex9_regular states (C : state3 -> state3 -> R) g :
  (forall a iq i a' iq' i', C (a, iq, i) (a', iq', i') <> 0%R -> iq = iq' /\ connects true (nth a states dummy_pw) (nth a' states dummy_pw) = true) ->
  ags_regular 60 (ex9_K states) (resolvent_op 60 (fun i j => C (state_of 2 3 i) (state_of 2 3 j)) g).
Proof.
  intros HC y Hy.
  assert (Hz : forall x, x < 60 -> x <> 0 -> y x = c0).
  { intros x Hx Hx0. rewrite (Hy x Hx). apply AgsProps.ctotal_zero. intros z Hz. rewrite (ex9_K0 states x z Hx0). apply AgsProps.cmul_0_l'. }
  intros x Hx. destruct (Nat.eq_dec x 0) as [->|Hx0]; [ | exact (Hz x Hx Hx0) ].
  rewrite (Hy 0 Hx). apply AgsProps.ctotal_zero. intros z Hz60. rewrite ex9_K1. unfold potential3.
  destruct (state_of 2 3 z) as [[a iq] i] eqn:Ez. destruct (Nat.eqb_spec 1 iq) as [<-|Hq]; cbn [andb].
  - replace (ctotal _ 60) with c0; [ apply AgsProps.cmul_0_r' | ]. symmetry. apply AgsProps.ctotal_zero. intros u Hu.
    destruct (Nat.eq_dec u 0) as [->|Hu0]; [ | rewrite (Hz u Hu Hu0); apply AgsProps.cmul_0_r' ].
    replace (resolvent_op 60 (fun i0 j => C (state_of 2 3 i0) (state_of 2 3 j)) g z 0) with c0; [ apply AgsProps.cmul_0_l' | ]. symmetry. apply AgsProps.ctotal_zero. intros k Hk.
    rewrite Ez. change (state_of 2 3 0) with (0, 0, 0). destruct (state_of 2 3 k) as [[a' iq'] i'].
    replace (C (a, 1, i)%nat (a', iq', i') * C (0, 0, 0)%nat (a', iq', i'))%R with 0%R; [ apply AgsProps.cmul_0_l' | ].
    destruct (Req_dec (C (a, 1, i) (a', iq', i')) 0%R) as [->|N1]; [ ring | ]. destruct (Req_dec (C (0, 0, 0) (a', iq', i')) 0%R) as [->|N2]; [ ring | ].
    destruct (HC _ _ _ _ _ _ N1) as [E1 _]. destruct (HC _ _ _ _ _ _ N2) as [E2 _]. lia.
  - unfold rc. rewrite Rmult_0_r. apply AgsProps.cmul_0_l'.
Qed.

Lemma ex9_ratio Eb : (-100 < Eb < 0)%R -> (0.9 < mass_ratio Eb < 1.1)%R.
Proof.
  intros H. unfold mass_ratio, reduced_mass, MN, Mn, Mp. set (M := (939565 / 1000 + 938272 / 1000 + Eb)%R).
  assert (HM : (1777 < M < 1878)%R) by (unfold M; lra).
  replace (2 / 3 * (0.5 * (938272 / 1000 + 939565 / 1000)) / (939565 / 1000 * M / (939565 / 1000 + M)))%R
    with ((2 / 3 * (1 / 2 * (938272 / 1000 + 939565 / 1000))) * (939565 / 1000 + M) / (939565 / 1000 * M))%R.
  2:{ replace 0.5%R with (1 / 2)%R by lra. field. lra. }
  split; apply Rmult_lt_reg_r with (939565 / 1000 * M)%R; try lra; unfold Rdiv at 1; try (unfold Rdiv at 1); rewrite ?Rmult_assoc; rewrite ?Rinv_l, ?Rmult_1_r by lra; try lra.
Qed.

(* Non-vacuity of C91_channel: every hypothesis holds for this run; it succeeds with at least one energy and one deuteron wave;
   the kernel is not zero, and the equation of amplitudes_of is uniquely solvable for whatever wave packets and edges. *)
Lemma ex9_diag ss V : construct_symmetric_pw_states_g 0 1 1 false = Ok ss ->
  fresh_potential ex9_mem false true 1 ex9_pot (0, 0)%R ex9_vg (ss_states ss) = Ok V -> V = SpectralProps.ex6_V.
Proof.
  intros Hss HV.
  destruct (potential_all 0 1 1 false true ss ex9_pot (0, 0)%R ex9_vg ltac:(lia) Hss (or_intror eq_refl) (ex9_hermitian _) ex9_grid
    (ex9_mem 0 (3 * 3 * Z.to_nat (num_2N_unco_states true false 1))) (ex9_mem 1 (3 * 3 * 4 * Z.to_nat (num_2N_coup_states true false 1))))
    as (V' & E & L & _ & T & _); [ apply repeat_length | apply repeat_length | ].
  assert (V' = V) as -> by (unfold fresh_potential in HV; change (vg_Np ex9_vg) with 3 in HV; congruence).
  exact (ex9_values V ss Hss L T).
Qed.
Lemma ex9_bound ss cm i : construct_symmetric_pw_states_g 0 1 1 false = Ok ss -> In (mkpw 0 1 1 0 0 1 1 1 1) (ss_states ss) -> is_channel false (ss_states ss) cm i ->
  bound_states_ok (is_deuteron_channel false (ss_states ss) cm i) (fst (spectrum SpectralProps.ex6_diag 3 SpectralProps.ex6_p SpectralProps.ex6_V cm i)).
Proof.
  intros Ess Hd Hch. destruct (SpectralProps.ex6_spectra cm i) as (_ & _ & S). destruct cm.
  - split; [ intros _; exact S | ]. intros ND. exfalso. apply ND. destruct Hch as (s & Hs & Em).
    assert (i = 0) as ->.
    { destruct (SpectralFinal.table_phys 0 1 1 false ss s Ess Hs) as [P J].
      destruct (PWPropsLemmas.numbering_tensor false 1 s s P P J) as (_ & (z & Ez & Bz) & _). rewrite Em in Ez, Bz. cbn [fst snd] in Ez, Bz.
      assert (z = Z.of_nat i) by congruence. change (num_2N_coup_states true false 1) with 1%Z in Bz. lia. }
    exists (mkpw 0 1 1 0 0 1 1 1 1). split; [ exact Hd | ]. split; [ reflexivity | repeat split ].
  - assert (ND : ~ is_deuteron_channel false (ss_states ss) false i).
    { intros (s & _ & Em & D). unfold matrix_of in Em. rewrite (SpectralFinal.deut_coupled false s D) in Em. discriminate. }
    split; [ tauto | intros _; exact S ].
Qed.
Lemma ex9_Eb ss Eb : In (mkpw 0 1 1 0 0 1 1 1 1) (ss_states ss) ->
  bound_energy false (ss_states ss) (fun cm i => fst (spectrum SpectralProps.ex6_diag 3 SpectralProps.ex6_p SpectralProps.ex6_V cm i)) Eb -> Eb = (t - 100)%R.
Proof.
  intros Hd [H _]. destruct SwpWholeProps.ex_t_bounds as (B & _ & _).
  destruct (H true 0) as [H1 H2]. { exists (mkpw 0 1 1 0 0 1 1 1 1). split; [ exact Hd | ]. split; [ reflexivity | repeat split ]. }
  cbn [fst snd spectrum SpectralProps.ex6_diag dim2 Nat.mul Nat.eqb Nat.add In] in H2.
  destruct H2 as [H2|[H2|[H2|[H2|[H2|[H2|[]]]]]]]; [ symmetry; exact H2 | | | | | ]; lra.
Qed.
Lemma ex9_tables : exists ss states, construct_symmetric_pw_states_g 0 1 1 false = Ok ss /\ channel_slice ss 0 = Ok states /\ length states = 10 /\ ss_N_chn ss = 2%Z /\
  In (mkpw 0 1 1 0 0 1 1 1 1) (ss_states ss) /\ nth 4 states dummy_pw = mkpw 0 1 1 0 0 1 1 1 1.
Proof.
  do 2 eexists. split; [ vm_compute; reflexivity | ]. split; [ vm_compute; reflexivity | ]. split; [ reflexivity | ]. split; [ reflexivity | ].
  split; [ cbn [ss_states In]; tauto | reflexivity ].
Qed.
Lemma ex9_part3 : partition_from_zero 3 (vg_pWP ex9_vg).
Proof. split; [ reflexivity | ]; split; [ reflexivity | ]; intros i j [H1 H2]; destruct j as [|[|[|[|j]]]]; try lia; destruct i as [|[|[|i]]]; try lia; cbn [vg_pWP ex9_vg nth]; lra. Qed.
Definition ex9_inputs : list R := [OnShellProofs.mid ex9_q (t - 100) 0].
Lemma ex9_spectra ss V : construct_symmetric_pw_states_g 0 1 1 false = Ok ss -> fresh_potential ex9_mem false true 1 ex9_pot (0, 0)%R ex9_vg (ss_states ss) = Ok V ->
     solves SpectralProps.ex6_diag 3 (vg_pWP ex9_vg) V (num_channels false 1) /\
     forall cm i, is_channel false (ss_states ss) cm i -> let w := fst (spectrum SpectralProps.ex6_diag 3 (vg_pWP ex9_vg) V cm i) in
       increasing w /\ forall k, k < dim2 cm 3 -> nth k w 0%R <> 0%R /\ (- (Mn + Mp) < nth k w 0)%R.
Proof.
  intros Ess EV. destruct SwpWholeProps.ex_t_bounds as (B & _ & _). assert (HEb : (- (Mn + Mp) < t - 100)%R) by (unfold Mn, Mp; lra).
  rewrite (ex9_diag ss V Ess EV). split; [ exact SpectralProps.ex6_solves | ]. intros cm i _ w.
  destruct (SpectralProps.ex6_spectra cm i) as (S1 & S2 & _). split; [ exact S1 | ]. intros k Hk. split; [ exact (S2 k Hk) | ].
  unfold w. destruct cm; cbn [fst snd spectrum SpectralProps.ex6_diag dim2 Nat.mul Nat.eqb Nat.add] in Hk |- *.
  - do 6 (destruct k as [|k]; [ cbn [nth]; unfold Mn, Mp in *; lra | ]). lia.
  - do 3 (destruct k as [|k]; [ cbn [nth]; unfold Mn, Mp in *; lra | ]). lia.
Qed.
(* the run succeeds, with two energies, for every permutation matrix *)
Lemma ex9_runs ss states solve res : construct_symmetric_pw_states_g 0 1 1 false = Ok ss -> channel_slice ss 0 = Ok states -> length states = 10 -> ss_N_chn ss = 2%Z ->
  In (mkpw 0 1 1 0 0 1 1 1 1) (ss_states ss) -> nth 4 states dummy_pw = mkpw 0 1 1 0 0 1 1 1 1 -> solve_contract solve ->
  (forall row col v, In (row, col, v) res -> (0 <= row < Z.of_nat (length states * 2 * 3))%Z /\ (0 <= col < Z.of_nat (length states * 2 * 3))%Z) ->
  exists r, channel_run SpectralProps.ex6_diag isort solve ex9_mem ex9_cmem ex9_pmem false true 1 2 ex9_q ex9_pot (0, 0)%R ex9_vg ss 0 ex9_inputs res = Ok r /\
    length (os_T (cr_os r)) = 2 /\ In 4 (cr_ds r).
Proof.
  intros Ess Esl Ls Lc Hd H4 Hsolve Hr. destruct SwpWholeProps.ex_t_bounds as (B & _ & _).
  assert (HEb : (- (Mn + Mp) < t - 100)%R) by (unfold Mn, Mp; lra).
  assert (Hsel : OnShellProofs.selected 2 ex9_q (t - 100) ex9_inputs = [0; 1]).
  { assert (Hm := OnShellProofs.part_mid_lt 2 ex9_q (t - 100) 0 1 HEb ex9_part ltac:(lia) ltac:(lia)).
    unfold OnShellProofs.selected, OnShellProofs.bin_marked, OnShellProofs.pair_marked, OnShellProofs.between, ex9_inputs. cbn [seq Nat.sub filter existsb Nat.add].
    rewrite (proj2 (OnShellProofs.Rleb_true _ _) (Rle_refl _)), (proj2 (OnShellProofs.Rleb_true _ _) (Rlt_le _ _ Hm)). reflexivity. }
  assert (Hok : exists os, elastic_bins 2 ex9_q (t - 100) ex9_inputs = Ok os).
  { destruct (proj1 (proj2 (bin_home 2 ex9_q (t - 100) ex9_inputs ltac:(lia) ex9_part HEb))) as (os & E & _); [ | exists os; exact E ].
    assert (HR := ex9_ratio (t - 100) ltac:(lra)). intros i Hi. unfold GridSpec.lower, GridSpec.upper, ex9_q. destruct i as [|[|i]]; try lia; cbn [nth Nat.add]; lra. }
  assert (HT : forall os, elastic_bins 2 ex9_q (t - 100) ex9_inputs = Ok os -> length (os_T os) = 2).
  { intros os E. rewrite (OnShellProofs.elastic_ok 2 ex9_q (t - 100) ex9_inputs eq_refl ltac:(lia) HEb) in E. rewrite Hsel in E.
    destruct (OnShellProofs.all_some _); [ | discriminate ]. injection E as <-. reflexivity. }
  destruct (C91_channel SpectralProps.ex6_diag isort solve ex9_mem ex9_cmem ex9_pmem 0 1 1 false true ss 0 states 2 ex9_q ex9_pot (0, 0)%R ex9_vg ex9_inputs res)
    as [[_ HE]|(r & Er & _ & HR)].
  - exact isort_ok.
  - exact Hsolve.
  - intros k n. apply repeat_length.
  - intros k n. apply repeat_length.
  - intros k n. apply repeat_length.
  - lia.
  - exists 0%Z. reflexivity.
  - exact Ess.
  - lia.
  - exact Esl.
  - right. reflexivity.
  - apply ex9_hermitian.
  - exact ex9_grid.
  - cbn. lia.
  - lia.
  - exact ex9_part.
  - rewrite Ls. reflexivity.
  - exact Hr.
  - intros V. exact (ex9_spectra ss V Ess).
  - exfalso. destruct HE as [(V & cm & i & EV & Hch & Hbad)|(V & Eb & EV & HB & Hel)].
    + rewrite (ex9_diag ss V Ess EV) in Hbad. apply Hbad. exact (ex9_bound ss cm i Ess Hd Hch).
    + rewrite (ex9_diag ss V Ess EV) in HB. rewrite (ex9_Eb ss Eb Hd HB) in Hel. destruct Hok as (os & E). congruence.
  - exists r. cbv zeta in HR. destruct HR as (EV & _ & HB & Hel & _ & _ & _ & _ & _ & _ & Hds & _).
    rewrite (ex9_diag ss _ Ess EV) in HB. rewrite (ex9_Eb ss _ Hd HB) in Hel.
    split; [ exact Er | ]. split; [ exact (HT _ Hel) | ]. apply Hds; split; [ lia | rewrite H4; repeat split ].
Qed.
Example C91_example : exists ss states solve inputs r,
  construct_symmetric_pw_states_g 0 1 1 false = Ok ss /\ channel_slice ss 0 = Ok states /\ length states = 10 /\
  (forall keys, sort_indexes_contract keys (isort keys)) /\ solve_contract solve /\ allocates ex9_mem /\ allocates ex9_cmem /\ allocates ex9_pmem /\
  hermitian_model ex9_pot (ss_states ss) /\ vgrid_ok true ex9_vg /\ partition_from_zero 2 ex9_q /\ partition_from_zero 3 (vg_pWP ex9_vg) /\
  (forall V, fresh_potential ex9_mem false true 1 ex9_pot (0, 0)%R ex9_vg (ss_states ss) = Ok V ->
     solves SpectralProps.ex6_diag 3 (vg_pWP ex9_vg) V (num_channels false 1) /\
     forall cm i, is_channel false (ss_states ss) cm i -> let w := fst (spectrum SpectralProps.ex6_diag 3 (vg_pWP ex9_vg) V cm i) in
       increasing w /\ forall k, k < dim2 cm 3 -> nth k w 0%R <> 0%R /\ (- (Mn + Mp) < nth k w 0)%R) /\
  ex9_run solve ss inputs = Ok r /\ 0 < length (os_T (cr_os r)) /\ In 4 (cr_ds r) /\ ex9_K states 0 27 = (-200)%R /\
  forall C g, (forall a iq i a' iq' i', C (a, iq, i) (a', iq', i') <> 0%R -> iq = iq' /\ connects true (nth a states dummy_pw) (nth a' states dummy_pw) = true) ->
    ags_regular 60 (ex9_K states) (resolvent_op 60 (fun i j => C (state_of 2 3 i) (state_of 2 3 j)) g).
Proof.
  destruct ex9_tables as (ss & states & Ess & Esl & Ls & Lc & Hd & H4). destruct DetExists.solve_exists as (solve & Hsolve).
  assert (Hr : forall row col v, In (row, col, v) ex9_res -> (0 <= row < Z.of_nat (length states * 2 * 3))%Z /\ (0 <= col < Z.of_nat (length states * 2 * 3))%Z).
  { intros row col v [E|[]]. injection E as <- <- <-. rewrite Ls. cbn. lia. }
  destruct (ex9_runs ss states solve ex9_res Ess Esl Ls Lc Hd H4 Hsolve Hr) as (r & Er & HT & H4r). exists ss, states, solve, ex9_inputs, r.
  split; [ exact Ess | ]. split; [ exact Esl | ]. split; [ exact Ls | ]. split; [ exact isort_ok | ]. split; [ exact Hsolve | ].
  do 3 (split; [ intros k n; apply repeat_length | ]). split; [ apply ex9_hermitian | ]. split; [ exact ex9_grid | ]. split; [ exact ex9_part | ].
  split; [ exact ex9_part3 | ].
  split; [ intros V; exact (ex9_spectra ss V Ess) | ]. split; [ exact Er | ]. split; [ rewrite HT; lia | ]. split; [ exact H4r | ]. split.
  - rewrite ex9_K1. change (state_of 2 3 27) with (4, 1, 0). unfold potential3. rewrite H4.
    cbv -[Rplus Rmult Rinv Ropp IZR Rdiv sqrt Rminus SwpWholeProps.ex_t]. lra.
  - intros C g HC. exact (ex9_regular states C g HC).
Qed.

(* Non-vacuity of C91_whole_channel: the further hypotheses, for the grids of C91_example. *)
Definition ex9_junk : GeoModel.gjunk :=
  GeoModel.mkgjunk (repeat 7%R (Z.to_nat ((2 * GeoModel.geo_lmax GeoProps.ex_states + 1) ^ 6))) (repeat 7%R (Z.to_nat (GeoModel.cg_size (2 * GeoModel.geo_lmax GeoProps.ex_states))))
    (repeat 7%R (Z.to_nat (GeoProps.ex_legsize (GeoModel.max_l3 GeoProps.ex_states)) * 1)) (repeat 7%R (Z.to_nat (GeoProps.ex_legsize (GeoModel.max_L12 GeoProps.ex_states)) * 2 * 3 * 1 * 1))
    (repeat 7%R (Z.to_nat (GeoProps.ex_legsize (GeoModel.max_l3 GeoProps.ex_states)) * 2 * 3 * 1 * 1)).
Example C91_whole_example : exists ss,
  construct_symmetric_pw_states_g 0 1 1 false = Ok ss /\ channel_slice ss 0 = Ok GeoProps.ex_states /\
  GeoSpec.threej_rule GeoProps.ex_threej /\ GeoSpec.ninej_rule GeoProps.ex_ninej /\ GeoSpec.legendre_rule GeoProps.ex_sphP GeoProps.ex_legblock GeoProps.ex_legsize /\
  PermSpec.mesh_in (-1) 1 [0%R] /\ GeoModel.allocated GeoProps.ex_legsize GeoProps.ex_states 3 2 1 1 ex9_junk.
Proof.
  destruct GeoProps.C69_example as (R3 & R9 & RL & Hc & Hs & _ & Pp & Mx & _ & HA). exists GeoProps.ex_ss.
  do 6 (split; [ assumption | ]).
  unfold GeoModel.allocated, ex9_junk, SwpModel.zn. cbn [GeoModel.k_six GeoModel.k_cg GeoModel.k_P1 GeoModel.k_P2 GeoModel.k_P3]. rewrite !repeat_length, GeoProps.ex_lmax. repeat apply conj.
  - rewrite Z2Nat.id by lia. vm_compute. reflexivity.
  - rewrite Z2Nat.id by (cbv; discriminate). reflexivity.
  - reflexivity.
  - reflexivity.
  - reflexivity.
Qed.
