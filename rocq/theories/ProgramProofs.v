(* Proofs about the whole program (C94): grids, permutation stage, one parameter set. *)
From Coq Require Import Reals Lra Lia String Permutation Sorted ZifyBool.
From Verif Require Import Common ArrayLib NameModel ParamsModel ParamsSpec DriverModel DriverSpec DriverProofs InputModel InputSpec InputFinal PWModel PWSpec SwpModel SwpSpec SparseModel GridModel GridSpec GridProofs GridPropsLemmas
  PermModel PermSpec PermWholeModel PermWholeSpec GeoModel GeoSpec
  PioModel PioSpec PotentialModel PotentialSpec KernelModel KernelSpec ResolventModel SwpWholeModel SwpWholeSpec SpectralSpec OnShellModel OnShellSpec
  FaddeevModel FaddeevSpec DetModel DenseModel PadeSpec AgsSpec ChainModel ChainSpec IterSpec ReproModel ReproSpec OutputModel OutputSpec TextModel TextSpec ProgramModel ProgramSpec.
From Verif Require PermWholeProofs ChainFinal IterFinal OutputProofs KernelPropsLemmas GeoPropsLemmas InputProofs.
Open Scope nat_scope.
Open Scope list_scope.

(* ---------- grids ---------- *)
Lemma cheb_boundaries N s t b : length b = N + 1 -> nth 0 b 0%R = 0%R ->
  (forall i, 1 <= i <= N -> nth i b 0%R = (s * Rpower (tan ((2 * INR i - 1) * PI / (4 * INR N))) t)%R) -> b = cheb_list N s t.
Proof.
  intros L H0 H. apply (nth_ext _ _ 0%R 0%R); [ rewrite cheb_list_len; exact L | ]. intros [|i] Hi.
  - rewrite cheb_list_0. exact H0.
  - rewrite cheb_list_S by lia. rewrite H by lia. reflexivity.
Qed.
Lemma boundaries_partition fs type file N s t b : boundaries_of fs type file N s t b -> partition_from_zero N b.
Proof.
  intros [(_ & Hs & Ht & L & H0 & H)|(_ & P & _)]; [ | exact P ].
  rewrite (cheb_boundaries N s t b L H0 H). apply cheb_partition; assumption.
Qed.
Lemma read_custom fs file N b junk content lines : length junk = N + 1 -> length b = N + 1 -> fs file = Some content -> has_lines content lines -> Forall2 begins_with lines b ->
  read_boundaries (program_files fs) parse_line junk N file = Ok b.
Proof.
  intros Lj Lb Hf HL F. assert (Ll : length lines = N + 1) by (rewrite <- Lb; clear -F; induction F; cbn; congruence).
  destruct (boundaries_text content lines b N junk HL F Lj) as (S1 & _). specialize (S1 Ll).
  unfold read_boundary_file, read_boundaries in S1. unfold read_boundaries, program_files. rewrite Hf. exact S1.
Qed.

Section Grid.
Variables (fs : file_system) (gx gw junk : nat -> list R) (g : grid_params) (p q : list R).
Hypothesis Hj : forall n, length (junk n) = n.
Hypothesis Hx : forall n, length (gx n) = n.
Hypothesis Hw : forall n, length (gw n) = n.
Hypothesis Bp : boundaries_of fs (gp_p_type g) (gp_p_file g) (gp_Np g) (gp_s g) (gp_t g) p.
Hypothesis Bq : boundaries_of fs (gp_q_type g) (gp_q_file g) (gp_Nq g) (gp_s g) (gp_t g) q.
Hypothesis Hpq : gp_q_type g = "custom"%string -> gp_p_type g = "custom"%string.

Lemma nth_flat_uniform {A B} (f : A -> list B) n (l : list A) (d : B) (da : A) i k :
  (forall a, length (f a) = n) -> k < length l -> i < n -> nth (k * n + i) (flat_map f l) d = nth i (f (nth k l da)) d.
Proof.
  intros L. revert k. induction l as [|a l IH]; intros k Hk Hi; [ cbn in Hk; lia | ]. cbn [flat_map]. destruct k as [|k].
  - rewrite app_nth1 by (rewrite L; lia). reflexivity.
  - rewrite app_nth2 by (rewrite L; lia). rewrite L. replace (S k * n + i - n) with (k * n + i) by lia. apply IH; [ cbn in Hk; lia | exact Hi ].
Qed.
Lemma flat_len {A B} (f : A -> list B) n (l : list A) : (forall a, length (f a) = n) -> length (flat_map f l) = length l * n.
Proof. intros L. induction l as [|a l IH]; [ reflexivity | ]. cbn [flat_map]. rewrite app_length, IH, L. cbn. lia. Qed.
Lemma nth_map_lt {A B} (f : A -> B) (l : list A) i da db : i < length l -> nth i (map f l) db = f (nth i l da).
Proof. intros H. rewrite (nth_indep _ db (f da)) by (rewrite map_length; exact H). apply map_nth. Qed.
(* a list given cell by cell *)
Lemma by_cells (x' : list R) (v : list R) (f : nat -> R -> R) N n : length v = n -> length x' = n * N ->
  (forall k i, k < N -> i < n -> nth (k * n + i) x' 0%R = f k (nth i v 0%R)) ->
  x' = flat_map (fun k => map (f k) v) (seq 0 N).
Proof.
  intros Lv Lx H. assert (Lf : forall k : nat, length (map (f k) v) = n) by (intros k; rewrite map_length; exact Lv).
  apply (nth_ext _ _ 0%R 0%R).
  - rewrite (flat_len _ n) by exact Lf. rewrite seq_length. lia.
  - intros j Hjl. rewrite Lx in Hjl. assert (n <> 0) by nia. assert (Hd := Nat.div_mod j n H0). assert (Hm := Nat.mod_upper_bound j n H0).
    assert (Hk : j / n < N) by (apply Nat.div_lt_upper_bound; [ exact H0 | lia ]).
    replace j with (j / n * n + j mod n) by lia. rewrite H by assumption.
    rewrite (nth_flat_uniform _ n _ 0%R 0 (j mod n) (j / n)) by (try exact Lf; try rewrite seq_length; assumption).
    rewrite seq_nth by exact Hk. rewrite (nth_map_lt _ _ _ 0%R) by (rewrite Lv; exact Hm). reflexivity.
Qed.
Lemma map_ones N : map (fun _ : nat => 1%R) (seq 0 N) = repeat 1%R N.
Proof. generalize 0. induction N as [|N IH]; intros s; [ reflexivity | ]. cbn. rewrite IH. reflexivity. Qed.

Lemma grids_ok : exists f, make_fwp (program_files fs) parse_line gx gw junk g = Ok f /\ f_qWP f = q /\
  vgrid_of g f = packet_points (gp_midpoint g) gx gw (gp_Np g) (gp_Np_per g) p /\
  vgrid_ok (gp_midpoint g) (vgrid_of g f).
Proof.
  assert (Pp := boundaries_partition _ _ _ _ _ _ _ Bp). assert (Pq := boundaries_partition _ _ _ _ _ _ _ Bq).
  destruct Pp as (Lp & _). destruct Pq as (Lq & _).
  assert (Ep : p_bin_grid (program_files fs) parse_line g (junk (gp_Np g + 1)) = Ok p).
  { unfold p_bin_grid. destruct Bp as [(-> & Hs & Ht & L & H0 & H)|(-> & P & content & lines & Hf & HL & F)]; cbn [String.eqb].
    - cbn. rewrite make_chebyshev_ok by apply Hj. f_equal. symmetry. apply cheb_boundaries; assumption.
    - cbn. exact (read_custom fs _ _ p _ content lines (Hj _) Lp Hf HL F). }
  assert (Eq : q_bin_grid (program_files fs) parse_line g (junk (gp_Nq g + 1)) = Ok q).
  { unfold q_bin_grid. destruct Bq as [(-> & Hs & Ht & L & H0 & H)|(Et & P & content & lines & Hf & HL & F)].
    - cbn. rewrite make_chebyshev_ok by apply Hj. f_equal. symmetry. apply cheb_boundaries; assumption.
    - rewrite (Hpq Et), Et. cbn. exact (read_custom fs _ _ q _ content lines (Hj _) Lq Hf HL F). }
  unfold make_fwp. rewrite Ep, Eq. cbn [obind]. unfold vgrid_of, packet_points, vgrid_ok.
  assert (EN : map (fun i : nat => sqrt (nth (i + 1) p 0 - nth i p 0)%R) (seq 0 (gp_Np g)) = map (fun k => sqrt (GridSpec.upper p k - GridSpec.lower p k)%R) (seq 0 (gp_Np g))) by reflexivity.
  destruct (gp_midpoint g).
  - rewrite !midpoints_ok by (try assumption; apply Hj). cbn [obind].
    rewrite !weights_ok by (try apply Hj; rewrite map_length, seq_length; reflexivity). cbn [obind].
    rewrite !norms_ok by (try assumption; apply Hj). cbn [obind].
    eexists. split; [ reflexivity | ]. cbn [f_pWP f_qWP f_np f_nq f_fp f_fq f_p f_q f_wp]. split; [ reflexivity | ].
    split.
    + f_equal; [ | apply map_ones ]. apply map_ext. intros k. unfold GridSpec.lower, GridSpec.upper. lra.
    + cbn [vg_norm vg_pWP vg_Np vg_p vg_f vg_w vg_Nper]. rewrite !map_length, !seq_length. repeat split; try assumption. discriminate.
  - destruct (quadrature_ok gx gw (gp_Np g) (gp_Np_per g) p (junk (gp_Np_per g * gp_Np g)) (junk (gp_Np_per g * gp_Np g)))
      as (p' & wp & E1 & L1 & L2 & Hp); auto.
    destruct (quadrature_ok gx gw (gp_Nq g) (gp_Nq_per g) q (junk (gp_Nq_per g * gp_Nq g)) (junk (gp_Nq_per g * gp_Nq g)))
      as (q' & wq & E2 & L3 & L4 & _); auto.
    rewrite E1, E2. cbn [obind].
    rewrite !weights_ok by (try apply Hj; assumption). cbn [obind].
    rewrite !norms_ok by (try assumption; apply Hj). cbn [obind].
    eexists. split; [ reflexivity | ]. cbn [f_pWP f_qWP f_np f_nq f_fp f_fq f_p f_q f_wp]. split; [ reflexivity | ].
    split.
    + f_equal.
      * apply (by_cells _ _ (fun k x => (GridSpec.upper p k - GridSpec.lower p k) / 2 * x + (GridSpec.lower p k + GridSpec.upper p k) / 2)%R _ (gp_Np_per g)); [ apply Hx | exact L1 | ]. intros k i Hk Hi. destruct (Hp k i Hk Hi) as [-> _]. unfold GridSpec.lower, GridSpec.upper. lra.
      * apply (by_cells _ _ (fun k w => (GridSpec.upper p k - GridSpec.lower p k) / 2 * w)%R _ (gp_Np_per g)); [ apply Hw | exact L2 | ]. intros k i Hk Hi. destruct (Hp k i Hk Hi) as [_ ->]. unfold GridSpec.lower, GridSpec.upper. lra.
      * rewrite map_ones. f_equal. lia.
    + cbn [vg_norm vg_pWP vg_Np vg_p vg_f vg_w vg_Nper]. rewrite !map_length, !seq_length. repeat split; try assumption; try lia.
Qed.
End Grid.

(* ---------- number of elements a row emits ---------- *)
Lemma ofold_count {A X} (f : A -> X -> outcome A) (size : A -> nat) (b : nat) (l : list X) :
  (forall a x a', In x l -> f a x = Ok a' -> size a' <= size a + b) -> forall a a', ofold f l a = Ok a' -> size a' <= size a + length l * b.
Proof.
  induction l as [|x l IH]; intros H a a' E; cbn [ofold] in E; [ injection E as <-; lia | ].
  destruct (f a x) as [a1| | |] eqn:E1; try discriminate. cbn [obind] in E. apply IH in E; [ | intros; eapply H; [ right; eassumption | eassumption ] ].
  assert (F := H a x a1 (or_introl eq_refl) E1). cbn [length]. lia.
Qed.
Lemma row_count legsize states t roots Np Nq pb qb phi wphi xs wxs tab qp G0 l :
  row_work legsize states t roots Np Nq pb qb phi wphi xs wxs tab qp G0 = Ok l ->
  length l <= Np * (length states * (length states * (Nq * Np))).
Proof.
  unfold row_work. match goal with |- (do r <- ?F; _) = _ -> _ => destruct F as [r| | |] eqn:E; try discriminate end. cbn [obind]. intros H. injection H as <-.
  pose proof (fun H => ofold_count _ (fun st : list (elem R) * list R => length (fst st)) (length states * (length states * (Nq * Np))) (seq 0 Np) H _ _ E) as B.
  rewrite seq_length in B. cbn [fst length] in B. refine (B _). clear B E.
  intros st pp st' _ E. pose proof (fun H => ofold_count _ (fun st : list (elem R) * list R => length (fst st)) (length states * (Nq * Np)) (seq 0 (length states)) H _ _ E) as B.
  rewrite seq_length in B. refine (B _). clear B E st st'.
  intros st ap st' _ E. pose proof (fun H => ofold_count _ (fun st : list (elem R) * list R => length (fst st)) (Nq * Np) (seq 0 (length states)) H _ _ E) as B.
  rewrite seq_length in B. refine (B _). clear B E st st'.
  intros st a st' _ E. match type of E with (do G <- ?F; _) = _ => destruct F as [G1| | |]; try discriminate end. cbn [obind] in E.
  match type of E with (do acc <- ?F; _) = _ => destruct F as [acc| | |] eqn:E1; try discriminate end. cbn [obind] in E. injection E as <-. cbn [fst].
  pose proof (fun H => ofold_count _ (fun l : list (elem R) => length l) Np (seq 0 Nq) H _ _ E1) as B.
  rewrite seq_length in B. refine (B _). clear B E1 acc.
  intros acc q acc' _ E. pose proof (fun H => ofold_count _ (fun l : list (elem R) => length l) 1 (seq 0 Np) H _ _ E) as B.
  rewrite seq_length, Nat.mul_1_r in B. refine (B _). clear B E acc acc'.
  intros acc p acc' _ E. destruct (aread tab (pq_idx Np Nq qp pp q p)) as [o| | |]; try discriminate. cbn [obind] in E. destruct o; [ | injection E as <-; cbn beta; lia ].
  match type of E with (do v <- ?F; _) = _ => destruct F as [v| | |]; try discriminate end. cbn [obind] in E.
  destruct (Req_EM_T v 0); injection E as <-; [ apply Nat.le_add_r | rewrite app_length; apply Nat.le_refl ].
Qed.
Lemma omap_seq {A} (f : nat -> outcome A) (g : nat -> A) l : (forall i, In i l -> f i = Ok (g i)) -> omap f l = Ok (map g l).
Proof. induction l as [|i l IH]; intros H; [ reflexivity | ]. cbn. rewrite (H i) by (left; reflexivity). cbn [obind]. rewrite IH by (intros; apply H; right; assumption). reflexivity. Qed.
Lemma concat_count {A} (f : nat -> list A) b l : (forall i, In i l -> length (f i) <= b) -> length (concat (map f l)) <= length l * b.
Proof. induction l as [|i l IH]; intros H; [ cbn; lia | ]. cbn [map concat length]. rewrite app_length. assert (F := H i (or_introl eq_refl)). assert (G := IH (fun j Hj => H j (or_intror Hj))). lia. Qed.

Lemma first_state (states : list pw) : states <> [] -> exists s0, aread states 0 = Ok s0 /\ In s0 states /\ nth_error states 0 = Some s0.
Proof. intros H. destruct states as [|s0 sr]; [ contradiction | ]. exists s0. repeat split. left. reflexivity. Qed.
(* ---------- the permutation matrix of a channel ---------- *)
Lemma permutation_ok lb sphP cfg f ss g J mx iso c states E sched :
  let Np := cnat cfg F_Np_WP in let Nq := cnat cfg F_Nq_WP in let p := f_pWP f in let q := f_qWP f in
  let Nphi := cnat cfg F_Nphi in let Nx := cnat cfg F_Nx in let D := length states * Nq * Np in
  library_ok lb sphP -> (1 <= mx)%Z -> Z.Odd mx -> construct_symmetric_pw_states_g g J mx iso = Ok ss -> (0 <= c < ss_N_chn ss)%Z -> channel_slice ss c = Ok states ->
  partition_from_zero Np p -> partition_from_zero Nq q -> building_ok lb cfg c states E sched ->
  exists res, permutation_stage lb cfg f ss E sched c = Ok res /\
    (forall row col v, In (row, col, v) res -> (0 <= row < Z.of_nat D)%Z /\ (0 <= col < Z.of_nat D)%Z) /\
    permutation_operator (lb_sixj lb) (lb_ninej lb) (lb_threej lb) sphP (lb_roots lb Nphi) (lb_dleg lb Nphi) (lb_gx lb Nx) (lb_gw lb Nx) p q states Nq Np
      (fun i j => PermWholeSpec.entry res (Z.of_nat i) (Z.of_nat j)).
Proof.
  intros Np Nq p q Nphi Nx D [R3 R9 RL Hr Hg] Hmx Hodd Hss Hc Hsl Pp Pq [Ha Hv Hs [HB Hb] Hsch Hn]. cbv zeta in Ha.
  destruct Ha as (L1 & L2 & L3 & Hal & LG). destruct (Hr Nphi) as [Mr Lr]. destruct (Hg Nx) as (Mx & Lx & Lw).
  destruct (PermWholeProofs.whole_matrix (lb_sixj lb) (lb_ninej lb) (lb_threej lb) sphP (lb_legblock lb) (lb_legsize lb) g J mx iso ss c states (lb_roots lb Nphi) (lb_dleg lb Nphi)
    Np Nq p q (lb_gx lb Nx) (lb_gw lb Nx) (en_phi E) (en_wphi E) (en_tab E) (en_geo E)
    R3 R9 RL Hmx Hodd Hss Hc Hsl Pp Pq Mr Mx) as (phi & wphi & tab & t & rows & E1 & E2 & E3 & H).
  { congruence. } { rewrite Lr. exact L1. } { rewrite Lr. exact L2. } { exact L3. } { rewrite Lr, Lx. exact Hal. }
  assert (Er : forall qp, In qp (seq 0 Nq) -> row_work (lb_legsize lb) states t (lb_roots lb Nphi) Np Nq p q phi wphi (lb_gx lb Nx) (lb_gw lb Nx) tab qp (en_G E qp) = Ok (rows qp)).
  { intros qp Hqp. apply in_seq in Hqp. apply E3; [ lia | rewrite Lr, Lx; apply LG ]. }
  set (evs := sched (concat (map rows (seq 0 Nq)))).
  destruct (Hsch (concat (map rows (seq 0 Nq)))) as [Hp Ht]. fold evs in Hp, Ht.
  assert (Lev : length evs <= D * D).
  { rewrite <- (map_length snd), (Permutation_length Hp).
    assert (B := concat_count rows (Np * (length states * (length states * (Nq * Np)))) (seq 0 Nq) (fun qp Hqp => row_count _ _ _ _ _ _ _ _ _ _ _ _ _ _ _ _ (Er qp Hqp))).
    rewrite seq_length in B. unfold D. nia. }
  destruct (KernelPropsLemmas.slice_states g J mx iso ss c states Hmx Hodd Hss Hc Hsl) as [Hst _].
  destruct (GeoPropsLemmas.channel_ok g J mx iso ss c states Hmx Hodd Hss Hc Hsl) as [Hne _].
  destruct (first_state states Hne) as (s0 & A0 & H0 & _).
  assert (Hs0 : chn_of s0 = nth_chn c) by (apply (Hst s0); exact H0).
  destruct (H (en_veqb E) (en_srt E) (cstr cfg F_P123_folder) (cint cfg F_J_2N_max) (en_B E) (cnat cfg F_P123_omp_num_threads) (en_buf E) (en_fs E) evs Hv Hs HB) as (fs & res & EB & _ & Hin & Hent).
  { intros t0 k Ht0 Hk. apply Hn; [ exact Ht0 | ]. exact (Nat.le_trans _ _ _ Hk Lev). }
  { exact Hb. } { exact Ht. } { rewrite flat_map_concat_map. exact Hp. }
  exists res. split; [ | split ].
  - unfold permutation_stage. fold Np Nq p q Nphi Nx. rewrite Hsl. cbn [obind]. rewrite E1. cbn [obind]. rewrite E2. cbn [obind].
    rewrite (omap_seq _ rows _ Er). cbn [obind]. rewrite A0. cbn [obind]. fold evs.
    assert (J1 : two_J_3N s0 = fst (nth_chn c)) by (rewrite <- Hs0; reflexivity).
    assert (J2 : P_3N s0 = snd (nth_chn c)) by (rewrite <- Hs0; reflexivity).
    rewrite J1, J2. rewrite EB. reflexivity.
  - intros row col v Hi. apply (Hin row col v Hi).
  - intros a iq i a' iq' i' (A1 & A2 & A3) (B1 & B2 & B3).
    destruct (Hent a iq i a' iq' i' _ _ (nth_error_nth' states dummy_pw A1) (nth_error_nth' states dummy_pw B1) A2 A3 B2 B3) as (v & Hv1 & Hv2).
    exists v. split; [ exact Hv1 | ]. rewrite <- Hv2. unfold idx3. f_equal; lia.
Qed.

(* ---------- one parameter set ---------- *)
Lemma elastic_stored mc cfg ss g J mx iso c psi states r :
  (1 <= mx)%Z -> Z.Odd mx -> construct_symmetric_pw_states_g g J mx iso = Ok ss -> (0 <= Z.of_nat c < ss_N_chn ss)%Z -> channel_slice ss (Z.of_nat c) = Ok states ->
  (0 <= cint cfg F_Np_WP)%Z -> (0 <= cint cfg F_Nq_WP)%Z -> cr_states r = states ->
  let os := cr_os r in let ds := cr_ds r in let ne := length (os_T os) in
  (forall i, In i ds -> i < length states) -> length (os_E os) = ne -> length (os_idx os) = ne -> length (cr_U r) = ne * length ds * length ds ->
  exists file, elastic_result mc cfg psi (cnat cfg F_Np_WP) (cnat cfg F_Nq_WP) r = Ok file /\
    elastic_text mc cfg c psi states (sw_Eb (cr_swp r)) os ds (cr_U r) file.
Proof.
  intros Hmx Hodd Hss Hc Hsl HNp HNq Es os ds ne Q11 Q6 Q7 Q8.
  destruct (KernelPropsLemmas.slice_states g J mx iso ss (Z.of_nat c) states Hmx Hodd Hss Hc Hsl) as [Hst Hnd].
  destruct (GeoPropsLemmas.channel_ok g J mx iso ss (Z.of_nat c) states Hmx Hodd Hss Hc Hsl) as [Hne Hph].
  destruct (first_state states Hne) as (s0 & A0 & H0 & A1).
  assert (Hs0 : chn_of s0 = nth_chn (Z.of_nat c)) by (apply (Hst s0); exact H0).
  set (U := cr_U r) in *.
  destruct (OutputProofs.store_main states ds (length (os_T os)) U (map rc (os_T os)) (map rc (os_E os)) (os_idx os)) as (t1 & t2 & St & Lt1 & Lt2 & T1 & T2).
  { exists s0. split; [ exact A1 | ].
    assert (N2 : forall x, snd (nth_chn x) = 1%Z \/ snd (nth_chn x) = (-1)%Z).
    { intros x. unfold nth_chn. cbn [snd]. destruct (Z.even x); [ auto | auto ]. }
    replace (P_3N s0) with (snd (nth_chn (Z.of_nat c))) by (rewrite <- Hs0; reflexivity). apply N2. }
  { intros k Hk. exact (Q11 k Hk). }
  { rewrite Q8. unfold ne. ring. } { apply map_length. } { rewrite map_length. exact Q6. } { exact Q7. }
  assert (J1 : two_J_3N s0 = fst (nth_chn (Z.of_nat c))) by (rewrite <- Hs0; reflexivity).
  assert (J2 : P_3N s0 = snd (nth_chn (Z.of_nat c))) by (rewrite <- Hs0; reflexivity).
  assert (E1 : Z.of_nat (cnat cfg F_Np_WP) = cint cfg F_Np_WP) by (unfold cnat, cint in *; lia).
  assert (E2 : Z.of_nat (cnat cfg F_Nq_WP) = cint cfg F_Nq_WP) by (unfold cnat, cint in *; lia).
  eexists. split.
  + unfold elastic_result. rewrite Es. fold os ds U. rewrite St. cbn [obind]. rewrite A0. cbn [obind]. rewrite E1, E2. reflexivity.
  + unfold elastic_text. rewrite J1, J2. destruct (nth_chn (Z.of_nat c)) as [twoJ parity]. cbn [fst snd]. exists t1, t2.
    split; [ reflexivity | ]. split; [ reflexivity | ]. split; [ exact Lt1 | ]. split; [ exact Lt2 | ]. split.
    * intros i k Hi Hk. destruct (T1 i k Hi Hk) as (si & sk & N1 & N2 & N3). rewrite N3.
      rewrite (nth_error_nth _ _ dummy_pw N1), (nth_error_nth _ _ dummy_pw N2). reflexivity.
    * intros j Hj. destruct (T2 j Hj) as (line & B1 & B2 & B3 & B4 & B5 & B6). exists line. split; [ exact B1 | ].
      assert (V1 : nth_error (map rc (os_T os)) j = Some (rc (nth j (os_T os) 0%R))) by (apply map_nth_error, nth_error_nth'; exact Hj).
      assert (V2 : nth_error (map rc (os_E os)) j = Some (rc (nth j (os_E os) 0%R))) by (apply map_nth_error, nth_error_nth'; fold ne in Hj; lia).
      assert (V3 : nth_error (os_idx os) j = Some (nth j (os_idx os) 0)) by (apply nth_error_nth'; fold ne in Hj; lia).
      split; [ congruence | ]. split; [ congruence | ]. split; [ congruence | ]. split; [ exact B5 | ].
      intros i k Hi Hk. rewrite (B6 i k Hi Hk). unfold amplitude.
      replace (i * length ds * length (os_T os) + k * length (os_T os) + j) with ((i * length ds + k) * length (os_T os) + j) by ring.
      apply nth_error_nth'. rewrite Q8. unfold ne in *. clear -Hi Hk Hj. set (n := length (os_T os)) in *. set (d := length ds) in *. assert (i * d + k + 1 <= d * d) by nia. nia.
Qed.
Lemma energies_read fs cfg energies : energy_file fs cfg energies -> read_input_energies fs (cstr cfg F_energy_input_file) = Ok energies.
Proof.
  intros (content & Hx & Hf & HE). apply (InputProofs.energies_prefix fs _ content (fields content) energies [] Hx Hf (eq_sym (app_nil_r _)) HE). exact I.
Qed.

Section OneSet.
Variables (lb : library) (sphP : Z -> Z -> R -> R) (mc : machine) (fs : file_system) (cfg : config R) (f : fwp) (ss : statespace) (g J mx : Z) (iso : bool) (m : potential)
  (c : nat) (psi : Z) (params : list R) (res : list (elem R)) (states : list pw) (energies : list R).
Let Np := cnat cfg F_Np_WP. Let Nq := cnat cfg F_Nq_WP. Let p := f_pWP f. Let q := f_qWP f.
Let Nphi := cnat cfg F_Nphi. Let Nx := cnat cfg F_Nx. Let D := length states * Nq * Np.
Let vg := vgrid_of (grid_settings cfg) f. Let E := mc_env mc c psi. Let pot := lb_interaction lb m params.
Let stage := set_stage lb mc fs cfg f ss m c psi params res.
Hypothesis EJ : J = cint cfg F_J_2N_max.
Hypothesis Emx : mx = cint cfg F_two_J_3N_max.
Hypothesis Ei : iso = cflag cfg F_isospin_breaking_1S0.
Hypothesis Hmx : (1 <= mx)%Z.
Hypothesis Hodd : Z.Odd mx.
Hypothesis Hss : construct_symmetric_pw_states_g g J mx iso = Ok ss.
Hypothesis Hc : (0 <= Z.of_nat c < ss_N_chn ss)%Z.
Hypothesis Hsl : channel_slice ss (Z.of_nat c) = Ok states.
Hypothesis Hg : vgrid_ok (cflag cfg F_midpoint_approx) vg.
Hypothesis Pq : partition_from_zero Nq q.
Hypothesis Hpot : hermitian_model pot (ss_states ss).
Hypothesis Hen : energy_file fs cfg energies.
Hypothesis Hin : forall row col v, In (row, col, v) res -> (0 <= row < Z.of_nat D)%Z /\ (0 <= col < Z.of_nat D)%Z.
Let P := fun i j => PermWholeSpec.entry res (Z.of_nat i) (Z.of_nat j).
Hypothesis Hop : permutation_operator (lb_sixj lb) (lb_ninej lb) (lb_threej lb) sphP (lb_roots lb Nphi) (lb_dleg lb Nphi) (lb_gx lb Nx) (lb_gw lb Nx) p q states Nq Np P.

(* solve_stage in terms of the two runs of a channel *)
Lemma solve_stage_dense : cflag cfg F_solve_dense = true -> cflag cfg F_include_breakup_channels = false ->
  solve_stage lb mc fs cfg f ss m c psi params res =
  channel_run (en_diag E) (en_sort E) (en_solve E) (en_mem E) (en_cmem E) (en_pmem E) iso (cflag cfg F_midpoint_approx) J Nq q pot (en_junk E) vg ss (Z.of_nat c) energies res.
Proof.
  intros Hd Hb. unfold solve_stage. rewrite (energies_read fs cfg energies Hen). cbn [obind]. rewrite Hd, Hb, <- EJ, <- Ei. unfold channel_run. reflexivity.
Qed.
Lemma solve_stage_iterate : cflag cfg F_solve_dense = false ->
  solve_stage lb mc fs cfg f ss m c psi params res =
  channel_iterate (en_diag E) (en_sort E) (en_mem E) (en_cmem E) (en_pmem E) (determinant (mc_getrf mc c psi)) (mc_strays mc c psi) (cflag cfg F_include_breakup_channels)
    iso (cflag cfg F_midpoint_approx) J Nq q pot (en_junk E) vg ss (Z.of_nat c) energies res.
Proof.
  intros Hd. unfold solve_stage. rewrite (energies_read fs cfg energies Hen). cbn [obind]. rewrite Hd, <- EJ, <- Ei. unfold channel_iterate. reflexivity.
Qed.
Lemma facts Eb os ds V : let ne := length (os_T os) in
  fresh_potential (en_mem E) iso (cflag cfg F_midpoint_approx) J pot (en_junk E) vg (ss_states ss) = Ok V ->
  (forall cm i, is_channel iso (ss_states ss) cm i -> bound_states_ok (is_deuteron_channel iso (ss_states ss) cm i) (fst (spectrum (en_diag E) (vg_Np vg) (vg_pWP vg) V cm i))) ->
  bound_energy iso (ss_states ss) (fun cm i => fst (spectrum (en_diag E) (vg_Np vg) (vg_pWP vg) V cm i)) Eb ->
  elastic_bins Nq q Eb energies = Ok os ->
  length (os_q os) = ne -> length (os_E os) = ne -> length (os_idx os) = ne ->
  (forall j, j < ne -> let k := nth j (os_q os) 0%R in let b := nth j (os_idx os) 0 in
     b < Nq /\ (GridSpec.lower q b < k < GridSpec.upper q b)%R /\ com_momentum_of Mp (Mn + Mp + Eb) (nth j (os_T os) 0%R) k /\
     nth j (os_E os) 0%R = (3 * k * k / (4 * MN))%R) ->
  StronglySorted lt ds -> (forall i, In i ds <-> i < length states /\ is_deuteron (nth i states dummy_pw)) ->
  channel_facts lb sphP E cfg vg q ss pot energies c states Eb os ds P.
Proof.
  intros ne Q1 Q2 Q3 Q4 Q5 Q6 Q7 Q9 Q10 Q11.
  destruct (KernelPropsLemmas.slice_states g J mx iso ss (Z.of_nat c) states Hmx Hodd Hss Hc Hsl) as [Hst Hnd].
  unfold channel_facts. cbv zeta. rewrite <- EJ, <- Ei, <- Emx.
  split; [ exact Hsl | ]. split; [ exact Hnd | ]. split; [ exact Hst | ]. split; [ exists V; split; [ exact Q1 | split; [ exact Q2 | exact Q3 ] ] | ]. split; [ exact Q4 | ].
  split; [ exact Q5 | ]. split; [ exact Q6 | ]. split; [ exact Q7 | ]. split; [ exact Q9 | ]. split; [ exact Q10 | ]. split; [ exact Q11 | exact Hop ].
Qed.

Lemma set_ok : settings_ok true false cfg -> (Z.of_nat D < 2 ^ 31)%Z -> solving_ok cfg vg ss pot E ->
  (stage = ([], Err) /\ set_stops cfg vg q ss pot E energies) \/
  exists file, stage = ([file], Ok tt) /\ result_file lb sphP mc cfg vg q ss pot energies c psi file.
Proof.
  intros [_ _ Sd _ _ _ Sb HJ HNp HNq Hmid] HD [Msort Msolve Mm Mc Mpt Hdiag].
  unfold spectra_ok in Hdiag. cbv zeta in Hdiag. rewrite <- EJ, <- Ei in *.
  destruct (ChainFinal.chain_c91 (en_diag E) (en_sort E) (en_solve E) (en_mem E) (en_cmem E) (en_pmem E) g J mx iso (cflag cfg F_midpoint_approx) ss (Z.of_nat c) states Nq q pot (en_junk E) vg energies res)
    as [[HE1 HR]|(r & Er & Es & HR)]; try assumption.
  { change (vg_Np vg) with Np. unfold Np, cnat, cint in *. lia. } { unfold Nq, cnat, cint in *. lia. }
  - left. split.
    + unfold stage, set_stage. rewrite solve_stage_dense, HE1 by assumption. reflexivity.
    + unfold set_stops. rewrite <- EJ, <- Ei. destruct HR as [(V & cm & i & HV & A & B)|(V & Eb & HV & A & B)]; exists V; (split; [ exact HV | ]).
      * left. exists cm, i. split; assumption.
      * right. exists Eb. split; assumption.
  - right. cbv zeta in HR. destruct HR as (Q1 & Q2 & Q3 & Q4 & Q5 & Q6 & Q7 & Q8 & Q9 & Q10 & Q11 & Q12).
    destruct (elastic_stored mc cfg ss g J mx iso c psi states r) as (file & Ef & Tf); try assumption; [ unfold cint in *; lia | unfold cint in *; lia | intros i Hi; apply Q11 in Hi; apply Hi | ].
    exists file. split.
    + unfold stage, set_stage. rewrite solve_stage_dense, Er by assumption. cbn [quiet rbind app]. fold Np Nq in Ef. fold Np Nq. rewrite Ef, Sb. reflexivity.
    + exists states, (sw_Eb (cr_swp r)), (cr_os r), (cr_ds r), P, (cr_U r).
      split; [ apply (facts _ _ _ (cr_V r)); assumption | ]. split; [ exact Q8 | ]. split; [ exact Q12 | exact Tf ].
Qed.

Lemma set_iterated : settings_ok false false cfg -> (Z.of_nat D <= 2 ^ 28)%Z -> iterating_ok cfg vg ss pot E (mc_getrf mc c psi) (mc_strays mc c psi) ->
  (stage = ([], Err) /\ set_stops cfg vg q ss pot E energies) \/
  exists file, stage = ([file], Ok tt) /\ iterated_file lb sphP mc cfg vg q ss pot energies c psi file.
Proof.
  intros [_ _ Sd _ _ _ Sb HJ HNp HNq Hmid] HD [Msort Mgetrf (fe & fb & Estr) Mm Mc Mpt Hdiag].
  unfold spectra_ok in Hdiag. cbv zeta in Hdiag. rewrite <- EJ, <- Ei in *.
  destruct (IterFinal.elastic_run (en_diag E) (en_sort E) (en_mem E) (en_cmem E) (en_pmem E) (mc_getrf mc c psi) fe fb g J mx iso (cflag cfg F_midpoint_approx) ss (Z.of_nat c) states Nq q pot (en_junk E) vg energies res)
    as [[HE1 HR]|(r & Er & HR)]; try assumption.
  { change (vg_Np vg) with Np. unfold Np, cnat, cint in *. lia. } { unfold Nq, cnat, cint in *. lia. }
  - left. split.
    + unfold stage, set_stage. rewrite solve_stage_iterate, Sb, Estr, HE1 by assumption. reflexivity.
    + unfold set_stops. rewrite <- EJ, <- Ei. destruct HR as [(V & cm & i & HV & A & B)|(V & Eb & HV & A & [B|(B & _)])]; [ | | discriminate B ]; exists V; (split; [ exact HV | ]).
      * left. exists cm, i. split; assumption.
      * right. exists Eb. split; assumption.
  - right. destruct HR as (Es & HR). cbv zeta in HR. destruct HR as (Q1 & Q2 & Q3 & Q4 & Q5 & Q6 & Q7 & Q8 & _ & Q9 & Q10 & Q11 & Q12).
    destruct (elastic_stored mc cfg ss g J mx iso c psi states r) as (file & Ef & Tf); try assumption; [ unfold cint in *; lia | unfold cint in *; lia | intros i Hi; apply Q11 in Hi; apply Hi | ].
    exists file. split.
    + unfold stage, set_stage. rewrite solve_stage_iterate, Sb, Estr, Er by assumption. cbn [quiet rbind app]. fold Np Nq in Ef. fold Np Nq. rewrite Ef. reflexivity.
    + exists states, (sw_Eb (cr_swp r)), (cr_os r), (cr_ds r), P, (cr_U r).
      split; [ apply (facts _ _ _ (cr_V r)); assumption | ]. split; [ exact Q8 | ]. split; [ exact Q12 | exact Tf ].
Qed.

(* the same where reading the cell before the array is undefined, as in the language: only a task without amplitudes gets to its end *)
Lemma set_strict fe fb sb : settings_ok false false cfg -> (Z.of_nat D <= 2 ^ 28)%Z -> iterating_ok cfg vg ss pot E (mc_getrf mc c psi) (Some fe, Some fb) -> mc_strays mc c psi = (None, sb) ->
  (exists o, stage = ([], o) /\ o <> Ok tt) \/ exists states Eb os ds P, channel_facts lb sphP E cfg vg q ss pot energies c states Eb os ds P /\ (ds = [] \/ os_T os = []).
Proof.
  intros [_ _ Sd _ _ _ Sb HJ HNp HNq Hmid] HD [Msort Mgetrf _ Mm Mc Mpt Hdiag] Estr.
  unfold spectra_ok in Hdiag. cbv zeta in Hdiag. rewrite <- EJ, <- Ei in *.
  assert (HNp' : 3 <= vg_Np vg) by (change (vg_Np vg) with Np; unfold Np, cnat, cint in *; lia).
  assert (HNq' : 1 <= Nq) by (unfold Nq, cnat, cint in *; lia).
  destruct (channel_stages (en_diag E) (en_sort E) (en_mem E) (en_cmem E) (en_pmem E) false iso (cflag cfg F_midpoint_approx) J Nq q pot (en_junk E) vg ss (Z.of_nat c) energies res) as [r0| | |] eqn:Est.
  2,3,4: left; unfold stage, set_stage; rewrite solve_stage_iterate, Sb by assumption; unfold channel_iterate; rewrite Est; cbn [obind quiet rbind]; eexists; (split; [ reflexivity | discriminate ]).
  destruct (IterFinal.elastic_after (en_diag E) (en_sort E) (en_mem E) (en_cmem E) (en_pmem E) (mc_getrf mc c psi) fe fb g J mx iso (cflag cfg F_midpoint_approx) ss (Z.of_nat c) states Nq q pot (en_junk E) vg energies res)
    with (r := r0) as (U & UBU & Er & HR); try assumption.
  set (r := with_amplitudes r0 U UBU) in *.
  destruct (Nat.eq_dec (length (cr_ds r)) 0) as [Z1|Z1]; [ | destruct (Nat.eq_dec (length (os_T (cr_os r))) 0) as [Z2|Z2] ].
  3: { left. exists UB. split; [ | discriminate ]. unfold stage, set_stage. rewrite solve_stage_iterate, Sb, Estr by assumption.
    rewrite (IterFinal.strict_run (en_diag E) (en_sort E) (en_mem E) (en_cmem E) (en_pmem E) (mc_getrf mc c psi) fe fb g J mx iso (cflag cfg F_midpoint_approx) ss (Z.of_nat c) states Nq q pot (en_junk E) vg energies res) with (r := r); try assumption; [ reflexivity | lia | lia ]. }
  all: right; destruct HR as (Es & HR); cbv zeta in HR; destruct HR as (Q1 & Q2 & Q3 & Q4 & Q5 & Q6 & Q7 & Q8 & _ & Q9 & Q10 & Q11 & Q12);
    exists states, (sw_Eb (cr_swp r)), (cr_os r), (cr_ds r), P; (split; [ apply (facts _ _ _ (cr_V r)); assumption | ]).
  - left. apply length_zero_iff_nil. exact Z1.
  - right. apply length_zero_iff_nil. exact Z2.
Qed.
End OneSet.
