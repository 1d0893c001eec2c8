From Coq Require Import Reals Lra Lia ZifyBool.
From Verif Require Import Common ArrayLib PWModel PWSpec PWProofs PWChnProofs PWPropsLemmas SwpModel SwpSpec GridSpec GridPropsLemmas PermPropsLemmas PotentialSpec
  KernelModel KernelSpec KernelProofs KernelBlockProofs KernelColProofs KernelPropsLemmas ResolventModel ResolventSpec ResolventPropsLemmas
  SwpWholeModel SwpWholeSpec SwpWholeFinal FaddeevSpec FaddeevLink MatrixInverse SpectralSpec SpectralProofs.
From Verif Require OnShellSpec OnShellBreakupProofs2.
Open Scope nat_scope.

Lemma half_block iso s : physical s -> coupled_matrix true iso s s = true -> second_half s = (block s =? 1).
Proof.
  intros P H. unfold coupled_matrix, coupled_via_L_2N, coupled_via_T_3N in H. unfold second_half, block.
  pose proof (ph_S s P) as PS. pose proof (ph_J s P) as PJ. unfold couples in PS, PJ. destruct (S_2N s =? 1)%Z eqn:E1; destruct ((S_2N s =? 0) && (J_2N s =? 0))%Z eqn:E2; try lia.
  - destruct (J_2N s <? L_2N s)%Z; reflexivity.
  - destruct (two_T_3N s =? 3)%Z; reflexivity.
Qed.
Lemma deut_coupled iso s : is_deuteron s -> coupled_matrix true iso s s = true.
Proof. intros (A & B & C & D). unfold coupled_matrix, coupled_via_L_2N, coupled_via_T_3N. rewrite A, B, C. reflexivity. Qed.
Lemma deut_block s : is_deuteron s -> block s = 0.
Proof. intros (A & B & C & D). unfold block. rewrite A, B, C. reflexivity. Qed.
(* a state of the deuteron's channel in the first block is the deuteron's *)
Lemma deut_same s t : physical s -> same_2N_channel true s t -> is_deuteron t -> block s = 0 -> is_deuteron s.
Proof.
  intros P (A & B & C & D) (E1 & E2 & E3 & E4) Hb. unfold block in Hb. rewrite A, B, E2, E3 in Hb. cbn in Hb.
  destruct (1 <? L_2N s)%Z eqn:E; [ discriminate | ]. unfold is_deuteron. rewrite A, B, C. repeat split; try assumption.
  assert (HL : (0 <= L_2N s)%Z) by (pose proof (ph_J s P) as PJ; unfold couples in PJ; lia).
  destruct D as [D|[_ [k D]]]; lia.
Qed.

Lemma sum_prod F n m : sum F (n * m) = sum (fun a => sum (fun b => F (a * m + b)) m) n.
Proof.
  induction n as [|n IH]; [ reflexivity | ]. rewrite sum_S, <- IH. replace (S n * m) with (n * m + m) by lia. apply sum_split2.
Qed.
Lemma sum3_flat N Nq Np (F : nat -> R) : sum3 N Nq Np (fun x => F (idx3 Nq Np x)) = sum F (N * Nq * Np).
Proof.
  rewrite sum_prod. rewrite (sum_prod (fun a => sum (fun b => F (a * Np + b)) Np)). reflexivity.
Qed.
Lemma sum3_ext' N Nq Np f g : (forall x, valid3 N Nq Np x -> f x = g x) -> sum3 N Nq Np f = sum3 N Nq Np g.
Proof. intros H. unfold sum3. apply sum_ext. intros a Ha. apply sum_ext. intros q Hq. apply sum_ext. intros p Hp. apply H. cbn. auto. Qed.
Lemma rows_orthogonal N Nq Np (C3 : state3 -> state3 -> R) :
  (forall x y, valid3 N Nq Np x -> valid3 N Nq Np y -> sum3 N Nq Np (fun k => C3 k x * C3 k y)%R = if same3 Nq Np x y then 1%R else 0%R) ->
  forall x y, valid3 N Nq Np x -> valid3 N Nq Np y -> sum3 N Nq Np (fun k => C3 x k * C3 y k)%R = if same3 Nq Np x y then 1%R else 0%R.
Proof.
  intros H x y Hx Hy. destruct x as [[ax qx] px], y as [[ay qy] py].
  assert (HNp : 0 < Np) by (destruct Hx as (_ & _ & ?); lia). assert (HNq : 0 < Nq) by (destruct Hx as (_ & ? & _); lia).
  pose (M := fun i j => C3 (state_of Nq Np i) (state_of Nq Np j)).
  assert (P := @inverse_sides (N * Nq * Np) (fun i k => M k i) M). cbv beta in P.
  assert (Q : forall i j, i < N * Nq * Np -> j < N * Nq * Np -> sum (fun k => M k i * M k j)%R (N * Nq * Np) = if i =? j then 1%R else 0%R).
  { intros i j Hi Hj. destruct (state_of_valid N Nq Np i HNp HNq Hi) as [Vi Ei]. destruct (state_of_valid N Nq Np j HNp HNq Hj) as [Vj Ej].
    rewrite <- sum3_flat. etransitivity; [ | rewrite <- Ei at 1; rewrite <- Ej at 1; exact (H _ _ Vi Vj) ].
    apply sum3_ext'. intros k Hk. unfold M. rewrite (state_of_idx N) by exact Hk. reflexivity. }
  specialize (P Q). specialize (P (idx3 Nq Np (ax, qx, px)) (idx3 Nq Np (ay, qy, py)) (idx3_lt N Nq Np _ Hx) (idx3_lt N Nq Np _ Hy)).
  rewrite <- sum3_flat in P. unfold same3. etransitivity; [ | exact P ]. apply sum3_ext'. intros k Hk. unfold M.
  rewrite !(state_of_idx N) by assumption. reflexivity.
Qed.

Lemma is_deut_dec s : {is_deuteron s} + {~ is_deuteron s}.
Proof.
  unfold is_deuteron. destruct (Z.eq_dec (L_2N s) 0), (Z.eq_dec (S_2N s) 1), (Z.eq_dec (J_2N s) 1), (Z.eq_dec (T_2N s) 0); (left; tauto) || (right; tauto).
Qed.
Lemma bins_nonneg Np e lam : scattering_bins Np e lam -> forall i, i <= Np -> (0 <= e i)%R.
Proof. intros [H0 H]. induction i as [|i IH]; intros Hi; [ lra | ]. specialize (H i ltac:(lia)). specialize (IH ltac:(lia)). rewrite Nat.add_1_r in H. lra. Qed.
Lemma dbins_nonneg Np e lam : deuteron_bins Np e lam -> forall i, 1 <= i <= Np -> (0 <= e i)%R.
Proof.
  intros (H0 & H1 & _ & H). induction i as [|i IH]; intros Hi; [ lia | ]. destruct (Nat.eq_dec i 0) as [->|]; [ lra | ].
  specialize (H i ltac:(lia)). specialize (IH ltac:(lia)). rewrite Nat.add_1_r in H. lra.
Qed.

Lemma table_phys g Jm mx iso ss s : construct_symmetric_pw_states_g g Jm mx iso = Ok ss -> In s (ss_states ss) -> physical s /\ (J_2N s <= Jm)%Z.
Proof. intros Hss. destruct (construct_g_inv _ _ _ _ _ Hss) as [_ ->]. intros H. apply in_tables in H. split; [ apply H | apply (ms_J _ _ _ _ (proj2 H)) ]. Qed.

Section Final.
Variables (diag : nat -> list R -> list R * list R) (g Jm mx : Z) (iso : bool) (ss : statespace) (c : Z) (states : list pw) (Np Nq : nat)
  (p q : list R) (V C0 e0 : list R * list R) (Eb0 : R) (st : swp_arrays).
Hypothesis Hmx : (1 <= mx)%Z.
Hypothesis Hodd : Z.Odd mx.
Hypothesis Hss : construct_symmetric_pw_states_g g Jm mx iso = Ok ss.
Hypothesis Hc : (0 <= c < ss_N_chn ss)%Z.
Hypothesis Hsl : channel_slice ss c = Ok states.
Hypothesis HNp : 3 <= Np.
Hypothesis Lp : length p = Np + 1.
Hypothesis LV : forall cm, length (pick cm V) = dim2 cm Np * dim2 cm Np * num_channels iso Jm cm.
Hypothesis LC : forall cm, length (pick cm C0) = dim2 cm Np * dim2 cm Np * num_channels iso Jm cm.
Hypothesis Le : forall cm, length (pick cm e0) = nbound cm Np * num_channels iso Jm cm.
Hypothesis Hdiag : solves diag Np p V (num_channels iso Jm).
Hypothesis Hsym : symmetric_potential iso Jm Np V.
Hypothesis Hrun : make_swp_states diag true iso Jm Np p (ss_states ss) V C0 e0 Eb0 = Ok st.
Hypothesis Hnd : forall cm i, is_channel iso (ss_states ss) cm i ->
  increasing (fst (spectrum diag Np p V cm i)) /\ forall k, k < dim2 cm Np -> nth k (fst (spectrum diag Np p V cm i)) 0%R <> 0%R.
Notation N := (length states).
Notation sta a := (nth a states dummy_pw).
Let w cm i k := nth (eigenvalue_no cm Np k) (fst (spectrum diag Np p V cm i)) 0%R.

Lemma run_facts :
  (forall cm, length (pick cm (sw_C st)) = dim2 cm Np * dim2 cm Np * num_channels iso Jm cm /\ length (pick cm (sw_e st)) = nbound cm Np * num_channels iso Jm cm) /\
  forall cm i, is_channel iso (ss_states ss) cm i ->
    i < num_channels iso Jm cm /\ bound_states_ok (is_deuteron_channel iso (ss_states ss) cm i) (fst (spectrum diag Np p V cm i)) /\
    eigenbasis (dim2 cm Np) (symmetric_of (hamiltonian Np p V cm i)) (fun x k => celem Np (sw_C st) cm i x k) (w cm i) /\
    channel_bins Np cm (is_deuteron_channel iso (ss_states ss) cm i) (fst (spectrum diag Np p V cm i)) (fun j => nth (i * nbound cm Np + j) (pick cm (sw_e st)) 0%R) /\
    (is_deuteron_channel iso (ss_states ss) cm i -> (sw_Eb st < 0)%R /\ In (sw_Eb st) (fst (spectrum diag Np p V cm i))) /\
    channel_midpoints Np cm (is_deuteron_channel iso (ss_states ss) cm i) (fst (spectrum diag Np p V cm i)) (fun j => nth (i * nbound cm Np + j) (pick cm (sw_e st)) 0%R).
Proof.
  destruct (whole_swp diag g Jm mx iso ss Np p V C0 e0 Eb0 Hmx Hss HNp Lp LV LC Le Hdiag) as [[_ E]|(HB & st' & E & H & _ & _ & HM & HL)]; [ congruence | ].
  assert (st' = st) as -> by congruence. split.
  - intros cm. destruct (HL cm) as [L1 L2]. rewrite L1, L2, LC, Le. auto.
  - intros cm i Hch. destruct (HB cm i Hch) as [B1 B2]. destruct (H cm i Hch) as (E1 & E2 & E3). do 2 (split; [ assumption | ]). split; [ | split; [ exact E2 | ]; split; [ exact E3 | ]; exact (HM cm i Hch) ].
    cbv zeta in E1. intros k Hk. destruct (E1 k Hk) as [A1 A2]. unfold celem. split.
    + intros x Hx. specialize (A1 x Hx). rewrite Nat.add_assoc in A1. unfold w. rewrite <- A1. apply sum_ext. intros y _. rewrite Nat.add_assoc. reflexivity.
    + intros l Hl. rewrite <- (A2 l Hl). apply sum_ext. intros y _. rewrite !Nat.add_assoc. reflexivity.
Qed.
Lemma slice_ok : (forall s, In s states <-> (physical s /\ in_model_space Jm mx iso s) /\ chn_of s = nth_chn c) /\ NoDup states.
Proof. exact (slice_states g Jm mx iso ss c states Hmx Hodd Hss Hc Hsl). Qed.
Lemma sub_table s : In s states -> In s (ss_states ss).
Proof.
  intros H. apply slice_ok in H. destruct (construct_g_inv _ _ _ _ _ Hss) as [_ ->]. apply in_tables. exact (proj1 H).
Qed.
Lemma mats_of (M : list R * list R) : (forall cm, length (pick cm M) = dim2 cm Np * dim2 cm Np * num_channels iso Jm cm) -> mats_ok true iso Jm Np M.
Proof.
  intros H. pose proof (H false) as H1. pose proof (H true) as H2. unfold pick, dim2, num_channels in H1, H2. split; [ rewrite H1 | rewrite H2 ]; apply Nat.mul_comm.
Qed.

Definition swp_energy (x : state3) : R := let '(a, _, i) := x in
  match matrix_of true iso (sta a) with (cm, Ok z) => w cm (Z.to_nat z) (pos Np cm (sta a) i) | _ => 0%R end.

Definition swp_edge (a k : nat) : R :=
  match matrix_of true iso (sta a) with (cm, Ok z) => nth (e_offset Np cm z (sta a) + k) (if cm then snd (sw_e st) else fst (sw_e st)) 0%R | _ => 0%R end.

Lemma spectral :
  (forall x y, valid3 N Nq Np x -> valid3 N Nq Np y ->
     sum3 N Nq Np (fun k => op3 true iso Np states (sw_C st) k x * op3 true iso Np states (sw_C st) k y)%R = (if same3 Nq Np x y then 1%R else 0%R)) /\
  (forall x y, valid3 N Nq Np x -> valid3 N Nq Np y ->
     sum3 N Nq Np (fun k => pair_hamiltonian iso Np states p V x k * op3 true iso Np states (sw_C st) k y)%R = (swp_energy y * op3 true iso Np states (sw_C st) x y)%R).
Proof.
  destruct slice_ok as [Hst HN]. destruct run_facts as [HL HF].
  assert (HC : mats_ok true iso Jm Np (sw_C st)) by (apply mats_of; intros cm; apply HL).
  assert (HV : mats_ok true iso Jm Np V) by (apply mats_of; exact LV).
  assert (HB : forall cm i, is_channel iso states cm i ->
    eigenbasis (dim2 cm Np) (symmetric_of (hamiltonian Np p V cm i)) (fun x k => celem Np (sw_C st) cm i x k) (w cm i)).
  { intros cm i (s & Hs & Em). apply HF. exists s. split; [ apply sub_table; exact Hs | exact Em ]. }
  split.
  - apply (orthogonal3 iso Jm mx (nth_chn c) Np Nq states Hst HN V (sw_C st) p w HC HB).
  - intros x y Hx Hy. etransitivity; [ apply (eigen3 iso Jm mx (nth_chn c) Np Nq states Hst HN V (sw_C st) p w HV HC Hsym HB x y Hx Hy) | ].
    destruct y as [[a' q'] i']. reflexivity.
Qed.

Lemma bins_of a i : a < N -> i < Np -> exists cm z, matrix_of true iso (sta a) = (cm, Ok z) /\
  let e := if cm then snd (sw_e st) else fst (sw_e st) in
  let o := e_offset Np cm z (sta a) in
  energy_of_wave_packet (sta a) i (sw_Eb st) (swp_energy (a, 0, i)) (nth (o + i) e 0%R) (nth (o + i + 1) e 0%R).
Proof.
  intros Ha Hi. destruct slice_ok as [Hst HN]. destruct run_facts as [HL HF].
  assert (Ia : In (sta a) states) by (apply nth_In; exact Ha). assert (It := sub_table _ Ia). destruct (table_phys g Jm mx iso ss _ Hss It) as [Pa Ja].
  destruct (mat_of true iso Jm mx (nth_chn c) states Hst (or_introl eq_refl) (sta a) Ia) as (z & Ez & Bz).
  set (cm := coupled_matrix true iso (sta a) (sta a)) in *. exists cm, (Z.of_nat z). split; [ exact Ez | ].
  cbv zeta. cbn [swp_energy]. rewrite Ez. rewrite Nat2Z.id.
  assert (Hch : is_channel iso (ss_states ss) cm z) by (exists (sta a); auto).
  destruct (HF cm z Hch) as (Hz & HB & HE & HBin & HEb & _). destruct (Hnd cm z Hch) as [Inc NZ].
  destruct (Hdiag cm z Hz) as (Lw & _). 
  unfold channel_bins in HBin. specialize (HBin Inc ltac:(rewrite Lw; exact NZ)). cbv zeta in HBin. destruct HBin as (B1 & B2 & B3).
  change (if cm then snd (sw_e st) else fst (sw_e st)) with (pick cm (sw_e st)).
  assert (Eo : e_offset Np cm (Z.of_nat z) (sta a) = z * nbound cm Np + (if cm then block (sta a) * (Np + 1) else 0)).
  { unfold e_offset, nbound. rewrite Nat2Z.id. destruct cm eqn:Ecm; [ | reflexivity ]. cbn [andb]. rewrite (half_block iso (sta a) Pa Ecm).
    pose proof (blk_lt (sta a)). destruct (block (sta a)) as [|[|]]; [ reflexivity | cbn [Nat.eqb]; lia | lia ]. }
  (* the deuteron's channel as seen by this partial wave *)
  assert (Hd : block (sta a) = 0 \/ cm = false -> (is_deuteron_channel iso (ss_states ss) cm z <-> is_deuteron (sta a))).
  { intros Hb. split; [ | intros D; exists (sta a); auto ]. intros (t & It' & Em & Dt). destruct (table_phys g Jm mx iso ss t Hss It') as [Pt Jt].
    assert (Sm : same_2N_channel true (sta a) t) by (apply (proj1 (proj1 (numbering_tensor iso Jm (sta a) t Pa Pt Ja))); congruence).
    assert (Hb' : block (sta a) = 0).
    { destruct Hb as [Hb|Hb]; [ exact Hb | ]. exfalso. assert (matrix_of true iso t = (cm, Ok (Z.of_nat z))) by exact Em. unfold matrix_of in H. rewrite (deut_coupled iso t Dt) in H. congruence. }
    exact (deut_same _ _ Pa Sm Dt Hb'). }
  assert (Fin : forall e lam, scattering_bins Np e lam -> ~ is_deuteron (sta a) -> forall Eb, energy_of_wave_packet (sta a) i Eb (lam i) (e i) (e (i + 1))).
  { intros e lam SB ND Eb. destruct SB as [S0 SB']. assert (Q := SB' i Hi). split; [ lra | ]. split; [ tauto | ]. intros _. split; [ apply (bins_nonneg Np e lam (conj S0 SB')); lia | exact Q ]. }
  rewrite Eo.
  destruct (Nat.eq_dec (block (sta a)) 1) as [Hb1|Hb1]; [ destruct cm eqn:Ecm | ].
  - (* second block *)
    rewrite Hb1. unfold pos. rewrite Hb1. rewrite Nat.mul_1_l.
    replace (z * nbound true Np + 1 * (Np + 1) + i) with (z * nbound true Np + (Np + 1 + i)) by lia.
    replace (z * nbound true Np + (Np + 1 + i) + 1) with (z * nbound true Np + (Np + 1 + (i + 1))) by lia.
    apply (Fin (fun j => nth (z * nbound true Np + (Np + 1 + j)) (pick true (sw_e st)) 0%R) (fun k => w true z (Np + k)) (B3 eq_refl)).
    intros D. rewrite (deut_block _ D) in Hb1. discriminate.
  - (* uncoupled *)
    unfold pos. rewrite Nat.add_0_r. rewrite <- Nat.add_assoc.
    assert (ND : ~ is_deuteron (sta a)) by (intros D; unfold cm in Ecm; rewrite (deut_coupled iso _ D) in Ecm; discriminate).
    apply (Fin (fun j => nth (z * nbound false Np + j) (pick false (sw_e st)) 0%R) (fun k => w false z k)); [ | exact ND ].
    apply B2. intros D. apply ND, Hd; [ right; reflexivity | exact D ].
  - assert (Hb0 : block (sta a) = 0) by (pose proof (blk_lt (sta a)); lia).
    replace (if cm then block (sta a) * (Np + 1) else 0) with 0 by (rewrite Hb0; destruct cm; reflexivity).
    replace (pos Np cm (sta a) i) with i by (unfold pos; rewrite Hb0; destruct cm; lia). rewrite Nat.add_0_r, <- Nat.add_assoc.
    specialize (Hd (or_introl Hb0)). destruct (is_deut_dec (sta a)) as [D|ND].
    + specialize (B1 (proj2 Hd D)). assert (Q := dbins_nonneg Np _ _ B1). destruct B1 as (A1 & A2 & A3 & A4). split; [ | split ].
      * destruct (Nat.eq_dec i 0) as [->|]; [ exact A3 | ]. specialize (A4 i ltac:(lia)). cbv beta in A4. lra.
      * intros [_ ->]. split; [ exact A1 | ]. split; [ exact A2 | ]. unfold w. split; [ cbv beta in A1, A2, A3; lra | ].
        destruct (HEb (proj2 Hd D)) as [EB1 EB2]. destruct (proj1 HB (proj2 Hd D)) as (k & Hk & Hneg & Hoth).
        destruct (In_nth _ _ 0%R EB2) as (k1 & Hk1 & Ek1).
        assert (k1 = k) by (destruct (Nat.eq_dec k1 k); [ assumption | specialize (Hoth k1 Hk1 ltac:(assumption)); lra ]).
        assert (Hk2 : eigenvalue_no cm Np 0 < length (fst (spectrum diag Np p V cm z))) by (rewrite Lw; apply eigno_lt; unfold dim2; destruct cm; lia).
        assert (eigenvalue_no cm Np 0 = k) as ->.
        { destruct (Nat.eq_dec (eigenvalue_no cm Np 0) k) as [|Hne]; [ assumption | ]. specialize (Hoth _ Hk2 Hne). cbv beta in A1, A2, A3. lra. }
        rewrite <- Ek1. f_equal. congruence.
      * intros Hn. assert (i <> 0) by tauto. split; [ apply Q; lia | apply (A4 i); lia ].
    + apply (Fin (fun j => nth (z * nbound cm Np + j) (pick cm (sw_e st)) 0%R) (fun k => w cm z k)); [ | exact ND ]. apply B2. tauto.
Qed.

Lemma mids_of a : a < N -> forall q', edges_of_wave Np (sta a) (fun i => swp_energy (a, q', i)) (swp_edge a).
Proof.
  intros Ha q'. destruct slice_ok as [Hst HN]. destruct run_facts as [HL HF].
  assert (Ia : In (sta a) states) by (apply nth_In; exact Ha). assert (It := sub_table _ Ia). destruct (table_phys g Jm mx iso ss _ Hss It) as [Pa Ja].
  destruct (mat_of true iso Jm mx (nth_chn c) states Hst (or_introl eq_refl) (sta a) Ia) as (z & Ez & Bz).
  set (cm := coupled_matrix true iso (sta a) (sta a)) in *. unfold swp_edge. cbn [swp_energy]. rewrite Ez. rewrite Nat2Z.id.
  assert (Hch : is_channel iso (ss_states ss) cm z) by (exists (sta a); auto).
  destruct (HF cm z Hch) as (Hz & HB & HE & HBin & HEb & HM). destruct (Hnd cm z Hch) as [Inc NZ].
  destruct (Hdiag cm z Hz) as (Lw & _).
  unfold channel_bins in HBin. specialize (HBin Inc ltac:(rewrite Lw; exact NZ)). cbv zeta in HBin. destruct HBin as (B1 & B2 & B3).
  unfold channel_midpoints in HM. cbv zeta in HM. destruct HM as (M1 & M2 & M3).
  change (if cm then snd (sw_e st) else fst (sw_e st)) with (pick cm (sw_e st)).
  assert (Eo : e_offset Np cm (Z.of_nat z) (sta a) = z * nbound cm Np + (if cm then block (sta a) * (Np + 1) else 0)).
  { unfold e_offset, nbound. rewrite Nat2Z.id. destruct cm eqn:Ecm; [ | reflexivity ]. cbn [andb]. rewrite (half_block iso (sta a) Pa Ecm).
    pose proof (blk_lt (sta a)). destruct (block (sta a)) as [|[|]]; [ reflexivity | cbn [Nat.eqb]; lia | lia ]. }
  assert (Hd : block (sta a) = 0 \/ cm = false -> (is_deuteron_channel iso (ss_states ss) cm z <-> is_deuteron (sta a))).
  { intros Hb. split; [ | intros D; exists (sta a); auto ]. intros (t & It' & Em & Dt). destruct (table_phys g Jm mx iso ss t Hss It') as [Pt Jt].
    assert (Sm : same_2N_channel true (sta a) t) by (apply (proj1 (proj1 (numbering_tensor iso Jm (sta a) t Pa Pt Ja))); congruence).
    assert (Hb' : block (sta a) = 0).
    { destruct Hb as [Hb|Hb]; [ exact Hb | ]. exfalso. assert (matrix_of true iso t = (cm, Ok (Z.of_nat z))) by exact Em. unfold matrix_of in H. rewrite (deut_coupled iso t Dt) in H. congruence. }
    exact (deut_same _ _ Pa Sm Dt Hb'). }
  rewrite Eo.
  destruct (Nat.eq_dec (block (sta a)) 1) as [Hb1|Hb1]; [ destruct cm eqn:Ecm | ].
  - rewrite Hb1. split; [ intros D; rewrite (deut_block _ D) in Hb1; discriminate | ]. intros _.
    unfold pos. rewrite Hb1, !Nat.mul_1_l. specialize (B3 eq_refl). specialize (M3 eq_refl). destruct B3 as [B0 _]. destruct M3 as [MA MB]. split; [ | unfold midpoint_bins; split ].
    + etransitivity; [ | exact B0 ]. f_equal. lia.
    + intros j Hj. etransitivity; [ | exact (MA j Hj) ]. f_equal. lia.
    + etransitivity; [ | exact MB ]. f_equal. lia.
  - assert (ND : ~ is_deuteron (sta a)) by (intros D; unfold cm in Ecm; rewrite (deut_coupled iso _ D) in Ecm; discriminate).
    assert (ND' : ~ is_deuteron_channel iso (ss_states ss) false z) by (intros D; apply ND, Hd; [ right; reflexivity | exact D ]).
    split; [ tauto | ]. intros _. destruct (B2 ND') as [B0 _]. destruct (M2 ND') as [MA MB]. unfold pos. split; [ | split ].
    + rewrite Nat.add_0_r. exact B0.
    + intros j Hj. rewrite Nat.add_0_r. exact (MA j Hj).
    + rewrite Nat.add_0_r. exact MB.
  - assert (Hb0 : block (sta a) = 0) by (pose proof (blk_lt (sta a)); lia).
    replace (if cm then block (sta a) * (Np + 1) else 0) with 0 by (rewrite Hb0; destruct cm; reflexivity).
    assert (Ep : forall i, pos Np cm (sta a) i = i) by (intros i; unfold pos; rewrite Hb0; destruct cm; lia).
    specialize (Hd (or_introl Hb0)). split.
    + intros D. specialize (B1 (proj2 Hd D)). specialize (M1 (proj2 Hd D)). destruct B1 as (A1 & A2 & _). rewrite Ep. split; [ rewrite Nat.add_0_r; exact A1 | ]. split; [ rewrite Nat.add_0_r; exact A2 | ].
      destruct M1 as [MA MB]. split; [ intros j Hj; rewrite !Ep, Nat.add_0_r; exact (MA j Hj) | rewrite !Ep, Nat.add_0_r; exact MB ].
    + intros ND. assert (ND' : ~ is_deuteron_channel iso (ss_states ss) cm z) by tauto. split; [ rewrite Nat.add_0_r; apply (B2 ND') | ].
      destruct (M2 ND') as [MA MB]. split; [ intros j Hj; rewrite !Ep, Nat.add_0_r; exact (MA j Hj) | rewrite !Ep, Nat.add_0_r; exact MB ].
Qed.
Lemma order_of : ascending3 states Nq Np swp_energy.
Proof.
  intros a a' iq i i' (Ha & _ & Hi) (Ha' & _ & Hi') Hcn Hlt. destruct slice_ok as [Hst HN]. destruct run_facts as [HL HF].
  assert (Ia : In (sta a) states) by (apply nth_In; exact Ha). assert (Ia' : In (sta a') states) by (apply nth_In; exact Ha').
  destruct (mat_of true iso Jm mx (nth_chn c) states Hst (or_introl eq_refl) (sta a) Ia) as (z & Ez & Bz).
  assert (Ez' : matrix_of true iso (sta a') = matrix_of true iso (sta a)) by (symmetry; exact (connects_matrix true iso Jm mx (nth_chn c) states Hst (or_introl eq_refl) _ _ Ia Ia' Hcn)).
  cbn [swp_energy]. rewrite Ez', Ez, Nat2Z.id. set (cm := coupled_matrix true iso (sta a) (sta a)) in *.
  assert (Hch : is_channel iso (ss_states ss) cm z) by (exists (sta a); split; [ apply sub_table; exact Ia | exact Ez ]).
  destruct (HF cm z Hch) as (Hz & _). destruct (Hnd cm z Hch) as [Inc _]. destruct (Hdiag cm z Hz) as (Lw & _). unfold w. apply Inc. rewrite Lw.
  pose proof (blk_lt (sta a)). pose proof (blk_lt (sta a')).
  split; [ | apply eigno_lt; unfold pos, dim2; destruct cm; [ clear - H0 Hi'; nia | exact Hi' ] ]. unfold eigenvalue_no, pos. destruct cm eqn:Ecm.
  - destruct (block (sta a)) as [|[|]], (block (sta a')) as [|[|]]; try lia;
      repeat match goal with |- context [?x <? ?y] => destruct (Nat.ltb_spec x y) end; lia.
  - destruct Hlt as [Hlt|[_ Hlt]]; [ exact Hlt | exfalso ].
    assert (sta a' = sta a) by exact (alone true iso Jm mx (nth_chn c) states Hst (or_introl eq_refl) (sta a) (sta a') Ia Ia' Ecm Hcn). rewrite H1 in Hlt. lia.
Qed.

Lemma resolvent_spectrum energies G :
  length q = Nq + 1 -> length G = length energies * (N * Np * Nq) ->
  let C3 := op3 true iso Np states (sw_C st) in
  let H3 := pair_hamiltonian iso Np states p V in
  exists (lam : state3 -> R) (edge : nat -> nat -> R),
    (forall x y, valid3 N Nq Np x -> valid3 N Nq Np y ->
       sum3 N Nq Np (fun k => C3 k x * C3 k y)%R = (if same3 Nq Np x y then 1%R else 0%R) /\
       sum3 N Nq Np (fun k => C3 x k * C3 y k)%R = (if same3 Nq Np x y then 1%R else 0%R) /\
       sum3 N Nq Np (fun k => H3 x k * C3 k y)%R = (lam y * C3 x y)%R) /\
    exists G', all_resolvents true iso Np Nq (fst (sw_e st)) (snd (sw_e st)) q states energies G = Ok G' /\ length G' = length G /\
      (forall a iq i, valid3 N Nq Np (a, iq, i) -> energy_of_wave_packet (sta a) i (sw_Eb st) (lam (a, iq, i)) (edge a i) (edge a (i + 1))) /\
      (forall a iq, a < N -> edges_of_wave Np (sta a) (fun i => lam (a, iq, i)) (edge a)) /\ ascending3 states Nq Np lam /\
      OnShellSpec.pair_boundaries iso Np (fst (sw_e st)) (snd (sw_e st)) states edge /\
      forall j E a iq i, nth_error energies j = Some E -> valid3 N Nq Np (a, iq, i) ->
          nth_error G' (j * (N * Np * Nq) + idx3 Nq Np (a, iq, i)) = Some (cell_value E (nth iq q 0%R) (nth (iq + 1) q 0%R) (edge a i) (edge a (i + 1))).
Proof.
  intros Lq LG C3 H3. exists swp_energy, swp_edge. destruct spectral as [S1 S2]. split.
  - intros x y Hx Hy. split; [ apply S1; assumption | ]. split; [ | apply S2; assumption ]. exact (rows_orthogonal N Nq Np C3 S1 x y Hx Hy).
  - destruct run_facts as [HL _]. destruct (HL false) as [_ L1]. destruct (HL true) as [_ L2]. cbn [pick] in L1, L2. unfold nbound, num_channels in L1, L2.
    assert (Hp : forall s, In s states -> physical s /\ (J_2N s <= Jm)%Z) by (intros s Hs; exact (table_phys g Jm mx iso ss s Hss (sub_table s Hs))).
    assert (HJ : (0 <= Jm)%Z) by (destruct (construct_g_inv _ _ _ _ _ Hss); assumption).
    destruct (array_props iso Jm Np Nq (fst (sw_e st)) (snd (sw_e st)) q states energies G Hp) as (G' & E1 & E2 & E3).
    + rewrite L1. unfold num_2N_unco_states. destruct iso; unfold zn; lia.
    + rewrite L2. unfold num_2N_coup_states. destruct iso; unfold zn; lia.
    + exact Lq.
    + exact LG.
    + exists G'. split; [ exact E1 | ]. split; [ exact E2 | ]. split.
      { intros a iq i (Ha & _ & Hi). destruct (bins_of a i Ha Hi) as (cm & z & Em & HW). cbv zeta in HW. unfold swp_edge. rewrite Em, Nat.add_assoc. exact HW. }
      split; [ intros a iq Ha; exact (mids_of a Ha iq) | ]. split; [ exact order_of | ]. split.
      { intros a s Ha. assert (Es : s = sta a) by (symmetry; exact (nth_error_nth _ _ dummy_pw Ha)).
        destruct (OnShellBreakupProofs2.bnd_place iso Jm Np (fst (sw_e st)) (snd (sw_e st)) states Hp) with (a := a) (s := s) as (cm & z & Em & HB).
        - rewrite L1. unfold num_2N_unco_states. destruct iso; unfold zn; lia.
        - rewrite L2. unfold num_2N_coup_states. destruct iso; unfold zn; lia.
        - exact Ha.
        - exists cm, z. split; [ exact Em | ]. intros k Hk. rewrite (HB k Hk). f_equal. unfold swp_edge. rewrite <- Es, Em. symmetry. exact (nth_error_nth _ _ 0%R (HB k Hk)). }
      intros j E a iq i HE (Ha & Hq & Hi).
      destruct (bins_of a i Ha Hi) as (cm & z & Em & HW). cbv zeta in HW.
      destruct (E3 j E a (sta a) iq i HE ltac:(apply nth_error_nth'; exact Ha) Hq Hi) as (cm' & z' & Em' & _ & HG).
      assert (cm' = cm /\ z' = z) as [-> ->] by (rewrite Em in Em'; injection Em' as -> ->; auto).
      unfold swp_edge. rewrite Em, Nat.add_assoc. rewrite <- HG. f_equal. f_equal. cbn [idx3]. lia.
Qed.
End Final.
