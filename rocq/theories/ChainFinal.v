(* C91: composition of the stages of one three-nucleon channel. *)
From Coq Require Import Reals Lra Lia Sorted ZifyBool.
From Verif Require Import Common ArrayLib PWModel PWSpec PWPropsLemmas SwpModel SwpSpec SparseModel GridSpec GridPropsLemmas PermWholeSpec
  KernelModel KernelSpec KernelProofs KernelPropsLemmas PotentialModel PotentialSpec ResolventModel SwpWholeModel SwpWholeSpec SwpWholeFinal SpectralSpec SpectralFinal OnShellModel OnShellSpec OnShellPropsLemmas
  FaddeevModel FaddeevSpec DetModel DenseModel PadeSpec AgsSpec AgsFinal FaddeevLink FaddeevStatements FaddeevDirect FaddeevSolveProofs PWChnProofs OnShellBreakupProofs2 ChainModel ChainSpec ChainProofs.
From Verif Require OmpCols.
Open Scope nat_scope.

(* the scattering equation only looks at numbers below D *)
Definition same_below {A} (D : nat) (f g : nat -> nat -> A) : Prop := forall x y, x < D -> y < D -> f x y = g x y.
Lemma sb_sym {A} D (f g : nat -> nat -> A) : same_below D f g -> same_below D g f.
Proof. intros H x y Hx Hy. symmetry. apply H; assumption. Qed.
Lemma two_PV_same D P V V' : same_below D V V' -> same_below D (two_PV D P V) (two_PV D P V').
Proof. intros H x y Hx Hy. unfold two_PV. apply sum_ext. intros z Hz. rewrite (H z y Hz Hy). reflexivity. Qed.
Lemma resolvent_same D C C' g g' : same_below D C C' -> (forall k, k < D -> g k = g' k) -> same_below D (resolvent_op D C g) (resolvent_op D C' g').
Proof. intros H Hg x y Hx Hy. unfold resolvent_op. apply ctotal_ext'. intros k Hk. rewrite (H x k Hx Hk), (H y k Hy Hk), (Hg k Hk). reflexivity. Qed.
Lemma regular_same D K K' Q Q' : same_below D K K' -> same_below D Q Q' -> ags_regular D K Q -> ags_regular D K' Q'.
Proof.
  intros HK HQ H y Hy. apply (H y). intros x Hx. rewrite (Hy x Hx). apply ctotal_ext'. intros z Hz. rewrite (HK x z Hx Hz). f_equal.
  apply ctotal_ext'. intros t Ht. rewrite (HQ z t Hz Ht). reflexivity.
Qed.
Lemma solution_same D K K' Q Q' T : same_below D K K' -> same_below D Q Q' -> ags_solution D K Q T -> ags_solution D K' Q' T.
Proof.
  intros HK HQ H x y Hx Hy. rewrite (H x y Hx Hy), (HK x y Hx Hy). f_equal. apply ctotal_ext'. intros z Hz. rewrite (HK x z Hx Hz). f_equal.
  apply ctotal_ext'. intros t Ht. rewrite (HQ z t Hz Ht). reflexivity.
Qed.
Lemma born_same D K K' Q Q' n : same_below D K K' -> same_below D Q Q' -> same_below D (born_term D K Q n) (born_term D K' Q' n).
Proof.
  intros HK HQ. induction n as [|n IH]; intros x y Hx Hy; cbn [born_term]; [ rewrite (HK x y Hx Hy); reflexivity | ].
  apply ctotal_ext'. intros z Hz. rewrite (HK z y Hz Hy). f_equal. apply ctotal_ext'. intros t Ht. rewrite (IH x t Hx Ht), (HQ t z Ht Hz). reflexivity.
Qed.
Lemma between_same D C C' T T' x y : same_below D C C' -> same_below D T T' -> x < D -> y < D -> between D C T x y = between D C' T' x y.
Proof.
  intros HC HT Hx Hy. unfold between. apply ctotal_ext'. intros i Hi. apply ctotal_ext'. intros j Hj. rewrite (HC i x Hi Hx), (HC j y Hj Hy), (HT i j Hi Hj). reflexivity.
Qed.

Lemma F2_len {A B} (P : A -> B -> Prop) l m : Forall2 P l m -> length l = length m.
Proof. induction 1; cbn [length]; congruence. Qed.
Lemma F2_nth {A B} (P : A -> B -> Prop) l m j x y : Forall2 P l m -> nth_error l j = Some x -> nth_error m j = Some y -> P x y.
Proof. intros H. revert j. induction H as [|a b l m Hab _ IH]; intros [|j] E1 E2; cbn [nth_error] in *; try discriminate; [ congruence | eauto ]. Qed.

(* two-nucleon matrices do not know the spectator *)
Lemma elem2_pair iso Np M r r' c c' i j : same_pair r r' -> same_pair c c' -> elem2 true iso Np M r c i j = elem2 true iso Np M r' c' i j.
Proof.
  destruct r as [L S J T l jj J3 T3 P], r' as [L' S' J' T' l' jj' J3' T3' P'], c as [Lc Sc Jc Tc lc jjc J3c T3c Pc], c' as [Lc' Sc' Jc' Tc' lc' jjc' J3c' T3c' Pc'].
  unfold same_pair; cbn [L_2N S_2N J_2N T_2N two_T_3N]. intros (-> & -> & -> & -> & ->) (-> & -> & -> & -> & ->). reflexivity.
Qed.

Lemma cell_energy {X Y} (ends : list nat) (Es : list X) (cells : list Y) (M : length ends = length Es + 1) : nth 0 ends 0 = 0 -> nth (length Es) ends 0 = length cells ->
  (forall k E, nth_error Es k = Some E -> nth k ends 0 <= nth (k + 1) ends 0 <= length cells) -> forall t, In t cells ->
  exists k E, nth_error Es k = Some E /\ In t (firstn (nth (k + 1) ends 0 - nth k ends 0) (skipn (nth k ends 0) cells)).
Proof.
  intros H0 Hn Hm t Ht. destruct (In_nth_error _ _ Ht) as (n & En). assert (Ln : n < length cells) by (apply nth_error_Some; congruence).
  assert (Hk : forall m, m <= length Es -> nth m ends 0 <= n \/ exists k, k < m /\ nth k ends 0 <= n < nth (k + 1) ends 0).
  { induction m as [|m IH]; intros Hle; [ left; lia | ]. destruct (IH ltac:(lia)) as [H|(k & Hk & H)]; [ | right; exists k; split; [ lia | exact H ] ].
    destruct (Nat.le_gt_cases (nth (S m) ends 0) n) as [H2|H2]; [ left; exact H2 | right; exists m; split; [ lia | ]; rewrite Nat.add_1_r; lia ]. }
  destruct (Hk (length Es) (le_n _)) as [H|(k & Hkl & H)]; [ lia | ]. destruct (nth_error Es k) as [E|] eqn:EE; [ | apply nth_error_None in EE; lia ].
  exists k, E. split; [ exact EE | ]. apply (nth_error_In _ (n - nth k ends 0)). rewrite OmpCols.nth_error_firstn_lt by lia. rewrite OmpCols.nth_error_skipn_add. replace (nth k ends 0 + (n - nth k ends 0)) with n by lia. exact En.
Qed.
Lemma solver_cell_valid N Nq Np t x : 0 < Np -> 0 < Nq -> solver_cell N Nq Np t = Ok x -> valid3 N Nq Np x.
Proof.
  intros H1 H2 E. unfold solver_cell in E. set (i := (fst (fst t) * zn Nq * zn Np + snd (fst t) * zn Np + snd t)%Z) in *.
  destruct ((0 <=? i) && (i <? zn (N * Nq * Np)))%Z eqn:Eb; [ | discriminate E ]. injection E as <-.
  assert (Hi : Z.to_nat i < N * Nq * Np) by (unfold zn in Eb; lia). exact (proj1 (state_of_valid N Nq Np _ H1 H2 Hi)).
Qed.
Lemma solver_cell_grid N Nq Np t : (0 <= fst (fst t) < Z.of_nat N)%Z -> in_grid Np Nq (snd (fst t), snd t) ->
  solver_cell N Nq Np t = Ok (Z.to_nat (fst (fst t)), Z.to_nat (snd (fst t)), Z.to_nat (snd t)).
Proof.
  destruct t as [[a i] k]. unfold in_grid. cbn [fst snd]. intros Ha [Hi Hk]. set (x := (Z.to_nat a, Z.to_nat i, Z.to_nat k)).
  assert (Hv : valid3 N Nq Np x) by (unfold x; repeat split; lia).
  assert (Hlt := KernelColProofs.idx3_lt N Nq Np _ Hv).
  assert (Ei : (a * zn Nq * zn Np + i * zn Np + k)%Z = Z.of_nat (idx3 Nq Np x)).
  { unfold x, idx3, zn. repeat rewrite ?Nat2Z.inj_add, ?Nat2Z.inj_mul. rewrite !Z2Nat.id by lia. ring. }
  unfold solver_cell. cbn [fst snd]. rewrite Ei, Nat2Z.id.
  destruct ((0 <=? Z.of_nat (idx3 Nq Np x)) && (Z.of_nat (idx3 Nq Np x) <? zn (N * Nq * Np)))%Z eqn:Eb; [ | unfold zn in Eb; lia ].
  f_equal. change (cell_of_index Nq Np (idx3 Nq Np x)) with (state_of Nq Np (idx3 Nq Np x)). exact (state_of_idx N Nq Np x Hv).
Qed.
(* ---------- breakup cells in terms of the boundaries ---------- *)
Lemma pb_unique iso Np eu ec states b b' a k : pair_boundaries iso Np eu ec states b -> pair_boundaries iso Np eu ec states b' -> a < length states -> k <= Np -> b a k = b' a k.
Proof.
  intros H H' Ha Hk. assert (En := nth_error_nth' states dummy_pw Ha). destruct (H _ _ En) as (cm & i & E & F). destruct (H' _ _ En) as (cm' & i' & E' & F').
  rewrite E in E'. injection E' as <- <-. specialize (F k Hk). specialize (F' k Hk). congruence.
Qed.
Lemma shell_ext b b' q N Nq Np E a iq ip : (forall a k, a < N -> k <= Np -> b a k = b' a k) -> on_shell_cell b q N Nq Np E a iq ip -> on_shell_cell b' q N Nq Np E a iq ip.
Proof. intros H [(H1 & H2 & H3) H4]. split; [ tauto | ]. rewrite <- !H by lia. exact H4. Qed.
Lemma stored_ext (b b' : nat -> nat -> R) q N Np E a iq ip t : (forall a k, a < N -> k <= Np -> b a k = b' a k) -> a < N -> ip < Np -> stored_for_cell b q E a iq ip t -> stored_for_cell b' q E a iq ip t.
Proof. intros H H1 H2 H4. unfold stored_for_cell in *. rewrite <- !H by lia. exact H4. Qed.
Lemma list_of_cells iso Jm Np Nq e_unco e_coup q states Eb Es edge :
  (forall s, In s states -> physical s /\ (J_2N s <= Jm)%Z) ->
  Z.of_nat (length e_unco) = (num_2N_unco_states true iso Jm * Z.of_nat (Np + 1))%Z ->
  Z.of_nat (length e_coup) = (num_2N_coup_states true iso Jm * Z.of_nat (2 * (Np + 1)))%Z ->
  partition_from_zero Nq q -> pair_boundaries iso Np e_unco e_coup states edge ->
  (forall a k, a < length states -> k < Np -> (edge a k < edge a (k + 1)%nat)%R) ->
  let run := breakup_cells true iso Np Nq e_unco e_coup q states Eb Es in
  (run = Err /\ exists E, In E Es /\ (0 <= E + Eb)%R /\ forall a iq ip, ~ on_shell_cell edge q (length states) Nq Np E a iq ip) \/
  exists cells ends, run = Ok (cells, ends) /\ breakup_list edge q (length states) Nq Np Eb Es cells ends /\
    (forall t, In t cells -> (0 <= fst (fst t) < Z.of_nat (length states))%Z).
Proof.
  intros Hs L1 L2 Pq PB Asc run. set (b := bnd iso Np e_unco e_coup states).
  assert (PB' : pair_boundaries iso Np e_unco e_coup states b) by exact (bnd_place iso Jm Np e_unco e_coup states Hs L1 L2).
  assert (HE : forall a k, a < length states -> k <= Np -> b a k = edge a k) by (intros a k; exact (pb_unique _ _ _ _ _ _ _ a k PB' PB)).
  assert (HE' : forall a k, a < length states -> k <= Np -> edge a k = b a k) by (intros; symmetry; apply HE; assumption).
  assert (Asc' : forall a k, a < length states -> k < Np -> (b a k < b a (k + 1)%nat)%R) by (intros a k Ha Hk; rewrite !HE by lia; apply Asc; assumption).
  destruct (breakup_main iso Jm Np Nq e_unco e_coup q states Eb Hs L1 L2 Pq Asc' Es) as (B1 & [B2|(cells & ends & B2)] & B3).
  - left. split; [ apply B1; exact B2 | ]. destruct B2 as (E & H1 & H2 & H3). exists E. split; [ exact H1 | ]. split; [ exact H2 | ].
    intros a iq ip Hc. apply (H3 a iq ip). exact (shell_ext _ _ _ _ _ _ _ _ _ _ HE' Hc).
  - right. exists cells, ends. split; [ exact B2 | ]. split; [ | intros t Ht; exact (proj1 (breakup_rim iso Jm Np Nq e_unco e_coup q states Eb Hs L1 L2 Pq Asc' Es cells ends B2 t Ht)) ].
    destruct (B3 cells ends B2) as (C1 & C2 & C3 & C4). split; [ exact C1 | ]. split; [ exact C2 | ]. split; [ exact C3 | ].
    intros k E HEk. destruct (C4 k E HEk) as (D1 & D2 & D3). split; [ exact D1 | ]. cbv zeta. split; [ exact D2 | ]. intros Hpos. specialize (D3 Hpos).
    assert (D3' : forall t, In t (firstn (nth (k + 1) ends 0 - nth k ends 0) (skipn (nth k ends 0) cells)) <->
        exists a iq ip, on_shell_cell edge q (length states) Nq Np E a iq ip /\ stored_for_cell edge q E a iq ip t).
    { intros t. rewrite D3. split; intros (a & iq & ip & X1 & X2); exists a, iq, ip.
      - assert (A := proj1 X1). split; [ exact (shell_ext _ _ _ _ _ _ _ _ _ _ HE X1) | exact (stored_ext _ _ _ _ _ _ _ _ _ _ HE (proj1 A) (proj2 (proj2 A)) X2) ].
      - assert (A := proj1 X1). split; [ exact (shell_ext _ _ _ _ _ _ _ _ _ _ HE' X1) | exact (stored_ext _ _ _ _ _ _ _ _ _ _ HE' (proj1 A) (proj2 (proj2 A)) X2) ]. }
    split; [ | exact D3' ]. intros Hmine.
    assert (X : exists E0, In E0 Es /\ (0 <= E0 + Eb)%R /\ forall a iq ip, ~ shell iso Np Nq e_unco e_coup q states E0 a iq ip).
    { exists E. split; [ exact (nth_error_In _ _ HEk) | ]. split; [ exact Hpos | ]. intros a iq ip Hc.
      assert (In (Z.of_nat a, Z.of_nat iq, Z.of_nat ip) []) as []. rewrite <- Hmine. apply D3'. exists a, iq, ip. split; [ exact (shell_ext _ _ _ _ _ _ _ _ _ _ HE Hc) | left; reflexivity ]. }
    apply B1 in X. rewrite B2 in X. discriminate X.
Qed.
Lemma omap_cases {A B} (f : A -> outcome B) l : (forall x, In x l -> f x = UB \/ exists y, f x = Ok y) ->
  (omap f l = UB /\ exists x, In x l /\ f x = UB) \/ exists m, omap f l = Ok m /\ Forall2 (fun x y => f x = Ok y) l m.
Proof.
  induction l as [|x l IH]; intros H; [ right; exists []; split; [ reflexivity | constructor ] | ]. cbn [omap].
  destruct (H x (or_introl eq_refl)) as [E|(y & E)]; rewrite E; cbn [obind]; [ left; split; [ reflexivity | exists x; split; [ left; reflexivity | exact E ] ] | ].
  destruct (IH (fun z Hz => H z (or_intror Hz))) as [(E1 & z & Hz & Ez)|(m & E1 & F)]; rewrite E1; cbn [obind].
  - left. split; [ reflexivity | ]. exists z. split; [ right; exact Hz | exact Ez ].
  - right. exists (y :: m). split; [ reflexivity | constructor; assumption ].
Qed.

Section Chain.
Variables (diag : nat -> list R -> list R * list R) (sort_indexes : list Z -> list nat)
  (mem : nat -> nat -> list R) (cmem : nat -> nat -> list cdouble) (pmem : nat -> nat -> list ptr)
  (gg Jm mx : Z) (iso mid : bool) (ss : statespace) (c : Z) (states : list pw) (Nq : nat) (q : list R)
  (pot : potmodel) (junk : R * R) (vg : vgrid) (inputs : list R) (res : list (Z * Z * R)).
Notation Np := (vg_Np vg).
Notation p := (vg_pWP vg).
Notation N := (length states).
Notation D := (length states * Nq * vg_Np vg).
Hypothesis Msort : forall keys, sort_indexes_contract keys (sort_indexes keys).
Hypothesis Mm : allocates mem.
Hypothesis Mc : allocates cmem.
Hypothesis Mp' : allocates pmem.
Hypothesis Hmx : (1 <= mx)%Z.
Hypothesis Hodd : Z.Odd mx.
Hypothesis Hss : construct_symmetric_pw_states_g gg Jm mx iso = Ok ss.
Hypothesis Hc : (0 <= c < ss_N_chn ss)%Z.
Hypothesis Hsl : channel_slice ss c = Ok states.
Hypothesis Hmid : mid = false \/ iso = false.
Hypothesis Hpot : hermitian_model pot (ss_states ss).
Hypothesis Hg : vgrid_ok mid vg.
Hypothesis HNp : 3 <= Np.
Hypothesis HNq : 1 <= Nq.
Hypothesis Hq : partition_from_zero Nq q.
Hypothesis HD : (Z.of_nat D < 2 ^ 31)%Z.
Hypothesis Hres : forall row col v, In (row, col, v) res -> (0 <= row < Z.of_nat D)%Z /\ (0 <= col < Z.of_nat D)%Z.
Hypothesis Hdiag : forall V, potential_matrices true iso mid Jm pot junk vg (ss_states ss)
    (mem 0 (Np * Np * Z.to_nat (num_2N_unco_states true iso Jm))) (mem 1 (Np * Np * 4 * Z.to_nat (num_2N_coup_states true iso Jm))) = Ok V ->
  solves diag Np p V (num_channels iso Jm) /\
  forall cm i, is_channel iso (ss_states ss) cm i -> let w := fst (spectrum diag Np p V cm i) in
    increasing w /\ forall k, k < dim2 cm Np -> nth k w 0%R <> 0%R /\ (- (Mn + Mp) < nth k w 0)%R.


Lemma part_len : length q = Nq + 1.
Proof. apply Hq. Qed.

Let Vu := mem 0 (Np * Np * Z.to_nat (num_2N_unco_states true iso Jm)).
Let Vc := mem 1 (Np * Np * 4 * Z.to_nat (num_2N_coup_states true iso Jm)).
Let V3 := potential3 mid pot vg states.
Let P i j := PermWholeSpec.entry res (Z.of_nat i) (Z.of_nat j).

Definition stages_err (bu : bool) : Prop :=
   (exists V cm i, potential_matrices true iso mid Jm pot junk vg (ss_states ss) Vu Vc = Ok V /\ is_channel iso (ss_states ss) cm i /\
       ~ bound_states_ok (is_deuteron_channel iso (ss_states ss) cm i) (fst (spectrum diag Np p V cm i))) \/
   (exists V Eb, potential_matrices true iso mid Jm pot junk vg (ss_states ss) Vu Vc = Ok V /\
       bound_energy iso (ss_states ss) (fun cm i => fst (spectrum diag Np p V cm i)) Eb /\
       (elastic_bins Nq q Eb inputs = Err \/
        bu = true /\ exists os C lam edge E, elastic_bins Nq q Eb inputs = Ok os /\ wave_packets states Nq Np p V3 Eb C lam edge /\ 
          In E (os_E os) /\ (0 <= E + Eb)%R /\ forall a iq ip, ~ on_shell_cell edge q N Nq Np E a iq ip)).
Definition stages_ub (bu : bool) : Prop :=
  bu = true /\ exists V Eb os C lam edge E a iq ip t, potential_matrices true iso mid Jm pot junk vg (ss_states ss) Vu Vc = Ok V /\
    bound_energy iso (ss_states ss) (fun cm i => fst (spectrum diag Np p V cm i)) Eb /\ elastic_bins Nq q Eb inputs = Ok os /\
    wave_packets states Nq Np p V3 Eb C lam edge /\ In E (os_E os) /\ (0 <= E + Eb)%R /\
    on_shell_cell edge q N Nq Np E a iq ip /\ stored_for_cell edge q E a iq ip t /\ ~ in_grid Np Nq (snd (fst t), snd t).
Definition staged (bu : bool) (r : chan_result) : Prop :=
  cr_states r = states /\
    let Eb := sw_Eb (cr_swp r) in let os := cr_os r in let ds := cr_ds r in
    let ne := length (os_T os) in
    potential_matrices true iso mid Jm pot junk vg (ss_states ss) Vu Vc = Ok (cr_V r) /\
    (forall cm i, is_channel iso (ss_states ss) cm i ->
       bound_states_ok (is_deuteron_channel iso (ss_states ss) cm i) (fst (spectrum diag Np p (cr_V r) cm i))) /\
    bound_energy iso (ss_states ss) (fun cm i => fst (spectrum diag Np p (cr_V r) cm i)) Eb /\
    elastic_bins Nq q Eb inputs = Ok os /\
    length (os_q os) = ne /\ length (os_E os) = ne /\ length (os_idx os) = ne /\
    (forall j, j < ne -> let k := nth j (os_q os) 0%R in let b := nth j (os_idx os) 0 in
       b < Nq /\ (GridSpec.lower q b < k < GridSpec.upper q b)%R /\ com_momentum_of Mp (Mn + Mp + Eb) (nth j (os_T os) 0%R) k /\
       nth j (os_E os) 0%R = (3 * k * k / (4 * MN))%R) /\
    StronglySorted lt ds /\ (forall i, In i ds <-> i < N /\ is_deuteron (nth i states dummy_pw)) /\
    let s := cr_sys r in
    s_N s = N /\ s_Nq s = Nq /\ s_Np s = Np /\ s_q s = os_idx os /\ s_d s = ds /\ s_breakup s = bu /\ s_ends s = snd (cr_bu r) /\
    Forall2 (fun t x => solver_cell N Nq Np t = Ok x) (fst (cr_bu r)) (s_cells s) /\
    channel_system s true iso Jm mx c states (cr_V r) (sw_C (cr_swp r)) /\
    length (cr_U r) = ne * length ds * length ds /\ length (cr_UBU r) = (if bu then ne * length (fst (cr_bu r)) else 0) /\
    exists (C : state3 -> state3 -> R) (lam : state3 -> R) (edge : nat -> nat -> R),
      wave_packets states Nq Np p V3 Eb C lam edge /\
      (bu = true -> breakup_list edge q N Nq Np Eb (os_E os) (fst (cr_bu r)) (snd (cr_bu r))) /\
      (pair_boundaries iso Np (fst (sw_e (cr_swp r))) (snd (sw_e (cr_swp r))) states edge /\
       (forall t, In t (fst (cr_bu r)) -> (0 <= fst (fst t) < Z.of_nat N)%Z) /\ (- (Mn + Mp) < Eb)%R) /\
      let Cx i j := C (state_of Nq Np i) (state_of Nq Np j) in
      let K := kernel_2PV states Nq Np P V3 in
      let Res j := averaged_resolvent states Nq Np q C edge (nth j (os_E os) 0 + Eb)%R in
      (forall n e, elastic s e \/ breakup s e -> term s (kernel_matrix s true iso states (cr_V r) (sw_C (cr_swp r))) n e =
         between D Cx (born_term D K (Res (e_row e mod ne)) n) (row_state s (e_row e)) (e_col e)) /\
      (forall solve U, solve_contract solve -> length U = length ds * length ds * ne -> exists U', dense_solver solve s U = Ok U' /\ length U' = length U /\
        forall dr dc j, dr < length ds -> dc < length ds -> j < ne -> ags_regular D K (Res j) ->
          exists T, ags_solution D K (Res j) T /\
            (forall T', ags_solution D K (Res j) T' -> forall x y, x < D -> y < D -> between D Cx T' x y = between D Cx T x y) /\
            nth (dr * length ds * ne + dc * ne + j) U' c0 =
              between D Cx T (idx3 Nq Np (nth dr ds 0, nth j (os_idx os) 0, 0)) (idx3 Nq Np (nth dc ds 0, nth j (os_idx os) 0, 0))).

Let run bu := channel_stages diag sort_indexes mem cmem pmem bu iso mid Jm Nq q pot junk vg ss c inputs res.
Lemma stages bu : (run bu = Err /\ stages_err bu) \/ (run bu = UB /\ stages_ub bu) \/ exists r, run bu = Ok r /\ staged bu r.
Proof.
  assert (Lp : length p = Np + 1) by apply Hg.
  destruct (potential_all gg Jm mx iso mid ss pot junk vg Hmx Hss Hmid Hpot Hg Vu Vc (Mm _ _) (Mm _ _)) as (V & EV & LV & SV & TV & _).
  destruct (Hdiag V EV) as [Hsol Hspec].
  assert (Hnd : forall cm i, is_channel iso (ss_states ss) cm i -> increasing (fst (spectrum diag Np p V cm i)) /\
      forall k, k < dim2 cm Np -> nth k (fst (spectrum diag Np p V cm i)) 0%R <> 0%R).
  { intros cm i Hch. destruct (Hspec cm i Hch) as [H1 H2]. split; [ exact H1 | intros k Hk; apply (H2 k Hk) ]. }
  set (C0 := (mem 2 (Np * Np * Z.to_nat (num_2N_unco_states true iso Jm)), mem 3 (Np * Np * 4 * Z.to_nat (num_2N_coup_states true iso Jm)))).
  set (e0 := (mem 4 ((Np + 1) * Z.to_nat (num_2N_unco_states true iso Jm)), mem 5 (2 * (Np + 1) * Z.to_nat (num_2N_coup_states true iso Jm)))).
  assert (LC : forall cm, length (pick cm C0) = dim2 cm Np * dim2 cm Np * num_channels iso Jm cm).
  { intros [|]; unfold C0, pick, dim2, num_channels; cbn [fst snd]; rewrite Mm; lia. }
  assert (Le : forall cm, length (pick cm e0) = nbound cm Np * num_channels iso Jm cm).
  { intros [|]; unfold e0, pick, nbound, num_channels; cbn [fst snd]; rewrite Mm; lia. }
  assert (Hrows : forall r, In r (rows_of res) -> r < D).
  { intros r Hr. apply in_map_iff in Hr. destruct Hr as ([[a b] v] & <- & Hi). destruct (Hres a b v Hi). cbn [fst snd]. lia. }
  assert (Hcols : forall r, In r (cols_of res) -> r < D).
  { intros r Hr. apply in_map_iff in Hr. destruct Hr as ([[a b] v] & <- & Hi). destruct (Hres a b v Hi). cbn [fst snd]. lia. }
  set (idx := sort_indexes (keys_col_major D (rows_of res) (cols_of res))).
  destruct (p123_csc D (rows_of res) (cols_of res) (vals_of res) idx) as (rows' & cols' & vals' & Es & _);
    [ unfold rows_of, cols_of; rewrite !map_length; reflexivity | unfold rows_of, vals_of; rewrite !map_length; reflexivity | exact HD | exact Hrows | exact Hcols | apply Msort | ].
  assert (Lq : length q = Nq + 1) by apply Hq.
  unfold run, channel_stages. rewrite Hsl. cbn [obind]. cbv zeta. fold idx. rewrite Es. cbn [obind]. fold Vu Vc. rewrite EV. cbn [obind]. fold C0 e0.
  destruct (whole_swp diag gg Jm mx iso ss Np p V C0 e0 0%R Hmx Hss HNp Lp LV LC Le Hsol) as [[(cm & i & Hch & Hbad) E]|(HB & st & E & HS & HE0 & _)].
  { left. rewrite E. cbn [obind]. split; [ reflexivity | ]. left. exists V, cm, i. auto. }
  rewrite E. cbn [obind].
  assert (HBe : bound_energy iso (ss_states ss) (fun cm i => fst (spectrum diag Np p V cm i)) (sw_Eb st)).
  { split; [ | exact HE0 ]. intros cm i Hd. assert (Hch : is_channel iso (ss_states ss) cm i) by (destruct Hd as (s & Hs & Em & _); exists s; auto).
    destruct (HS cm i Hch) as (_ & _ & HEb). exact (HEb Hd). }
  (* the bound-state energy *)
  assert (HEb : (- (Mn + Mp) < sw_Eb st <= 0)%R).
  { destruct (Classical_Prop.classic (exists cm i, is_deuteron_channel iso (ss_states ss) cm i)) as [(cm & i & Hd)|Hd].
    - assert (Hch : is_channel iso (ss_states ss) cm i) by (destruct Hd as (s & Hs & Em & _); exists s; auto).
      destruct (HS cm i Hch) as (_ & _ & HEb). destruct (HEb Hd) as [H1 H2]. split; [ | lra ].
      destruct (In_nth _ _ 0%R H2) as (k & Hk & <-). destruct (Hspec cm i Hch) as [_ Hlow].
      destruct (HB cm i Hch) as [Hi _]. destruct (Hsol cm i Hi) as (Lw & _). apply Hlow. rewrite <- Lw. exact Hk.
    - rewrite HE0 by (intros cm i H; apply Hd; eauto). split; [ | lra ]. assert (0 < Mn + Mp)%R by (unfold Mn, Mp; lra). lra. }
  destruct (bins_bracket Nq q (sw_Eb st) inputs HNq Hq (proj1 HEb)) as (midT & Hmom & _ & Hout & Hos).
  unfold find_on_shell_bins. destruct Hout as [Eos|(os & Eos)]; rewrite Eos; cbn [obind].
  { left. split; [ reflexivity | ]. right. exists V, (sw_Eb st). auto. }
  destruct (Hos os Eos) as (_ & Hbins & _ & ET & Eq & EE).
  assert (Hhome := proj1 (bin_home Nq q (sw_Eb st) inputs HNq Hq (proj1 HEb)) os Eos).
  destruct (deuterons gg Jm mx iso ss Hmx Hodd Hss) as (tbl & Etbl & _ & Hdeut).
  destruct (Hdeut c Hc) as (chn & d & Echn & Ed & Sd & Id & _). assert (chn = states) by congruence. subst chn.
  set (ds := map Z.to_nat d).
  assert (Lidx : length (os_idx os) = length (os_bins os)) by (symmetry; exact (F2_len _ _ _ Hhome)).
  assert (LT : length (os_T os) = length (os_bins os)) by (rewrite ET; apply map_length).
  assert (LE : length (os_E os) = length (os_bins os)) by (rewrite EE, map_length, Eq; apply map_length).
  assert (Lqq : length (os_q os) = length (os_bins os)) by (rewrite Eq; apply map_length).
  set (energies := map (fun E => E + sw_Eb st)%R (os_E os)).
  assert (Len : length energies = length (os_T os)) by (unfold energies; rewrite map_length; congruence).
  assert (Hds : forall i, In i ds <-> i < N /\ is_deuteron (nth i states dummy_pw)).
  { intros i. unfold ds. rewrite in_map_iff. split.
    - intros (z & <- & Hz). apply Id in Hz. destruct Hz as (_ & s & Es1 & Hdt). split; [ apply nth_error_Some; congruence | ].
      rewrite (nth_error_nth _ _ dummy_pw Es1). exact Hdt.
    - intros [H1 H2]. exists (Z.of_nat i). split; [ lia | ]. apply Id. split; [ lia | ]. exists (nth i states dummy_pw). split; [ | exact H2 ].
      rewrite Nat2Z.id. apply nth_error_nth'. exact H1. }
  assert (Sds : StronglySorted lt ds).
  { unfold ds. assert (Hp0 : forall z, In z d -> (0 <= z)%Z) by (intros z Hz; apply Id in Hz; apply Hz). clear - Sd Hp0. induction Sd as [|z l Hl IH Hz]; cbn [map]; [ constructor | ].
    constructor; [ apply IH; intros y Hy; apply Hp0; right; exact Hy | ]. rewrite Forall_forall in Hz |- *. intros y Hy. apply in_map_iff in Hy. destruct Hy as (y' & <- & Hy).
    specialize (Hz _ Hy). assert (0 <= z)%Z by (apply Hp0; left; reflexivity). lia. }
  assert (Hj : forall j, j < length (os_T os) -> nth j (os_idx os) 0 < Nq /\
     (GridSpec.lower q (nth j (os_idx os) 0%nat) < nth j (os_q os) 0 < GridSpec.upper q (nth j (os_idx os) 0%nat))%R /\
     com_momentum_of Mp (Mn + Mp + sw_Eb st) (nth j (os_T os) 0%R) (nth j (os_q os) 0%R) /\
     nth j (os_E os) 0%R = (3 * nth j (os_q os) 0 * nth j (os_q os) 0 / (4 * MN))%R).
  { intros j Hj. rewrite LT in Hj. destruct (nth_error (os_bins os) j) as [b|] eqn:Eb; [ | apply nth_error_None in Eb; lia ].
    assert (Hbi : In b (os_bins os)) by (apply (nth_error_In _ _ Eb)).
    assert (Hb : b < Nq) by (apply Hbins in Hbi; destruct Hbi as (T & k & _ & Hk & _ & [-> | ->]); lia).
    assert (Eq' : nth_error (os_q os) j = Some (mid_momentum (sw_Eb st) (GridSpec.lower q b) (GridSpec.upper q b))) by (rewrite Eq; exact (map_nth_error _ j _ Eb)).
    assert (ET' : nth_error (os_T os) j = Some (midT b)) by (rewrite ET; exact (map_nth_error _ j _ Eb)).
    assert (EE' := map_nth_error (fun k => 3 * k * k / (4 * MN))%R j _ Eq'). rewrite <- EE in EE'.
    rewrite (nth_error_nth _ _ 0%R Eq'), (nth_error_nth _ _ 0%R ET'), (nth_error_nth _ _ 0%R EE').
    destruct (nth_error (os_idx os) j) as [i|] eqn:Ei; [ | apply nth_error_None in Ei; lia ]. rewrite (nth_error_nth _ _ 0 Ei).
    destruct (F2_nth _ _ _ j b i Hhome Eb Ei) as [G1 G2]. split; [ exact G1 | ]. split; [ exact G2 | ]. split; [ apply Hmom; exact Hb | reflexivity ]. }
  assert (Hidx : forall i, In i (os_idx os) -> i < Nq).
  { intros i Hi. destruct (In_nth _ _ 0 Hi) as (j & Hlt & <-). apply Hj. lia. }

  set (G0 := cmem 0 (N * Np * Nq * length (os_T os))).
  assert (LG0 : length G0 = length energies * (N * Np * Nq)) by (unfold G0; rewrite Mc, Len; lia).
  assert (Lqs : length (os_idx os) = length energies) by congruence.
  assert (M1 : mats_ok true iso Jm Np (mem 6 (Np * Np * Z.to_nat (num_2N_unco_states true iso Jm)), mem 7 (Np * Np * 4 * Z.to_nat (num_2N_coup_states true iso Jm)))) by (unfold mats_ok; cbn [fst snd]; rewrite !Mm; lia).
  assert (M2 : mats_ok true iso Jm Np (mem 8 (Np * Np * Z.to_nat (num_2N_unco_states true iso Jm)), mem 9 (Np * Np * 4 * Z.to_nat (num_2N_coup_states true iso Jm)))) by (unfold mats_ok; cbn [fst snd]; rewrite !Mm; lia).
  assert (Amp := fun bu ends cells Hbu => AgsFinal.amplitudes diag gg Jm mx iso ss c states Np Nq p q V C0 e0 0%R st Hmx Hodd Hss Hc Hsl HNp ltac:(lia) Lp LV LC Le Hsol SV E Hnd
      res idx energies G0 (os_idx os) ds
      (mem 6 (Np * Np * Z.to_nat (num_2N_unco_states true iso Jm))) (mem 7 (Np * Np * 4 * Z.to_nat (num_2N_coup_states true iso Jm)))
      (mem 8 (Np * Np * Z.to_nat (num_2N_unco_states true iso Jm))) (mem 9 (Np * Np * 4 * Z.to_nat (num_2N_coup_states true iso Jm)))
      (pmem 0 (N * N)) (pmem 1 (N * N)) bu ends cells HD Hres (Msort _) Lq LG0 Lqs Hidx (fun i Hi => proj1 (proj1 (Hds i) Hi)) M1 (Mp' _ _) M2 (Mp' _ _) Hbu).
  assert (Hin : forall s, In s states -> In s (ss_states ss)) by exact (fun s => sub_table diag gg Jm mx iso ss c states Np p V C0 e0 0%R st Hmx Hodd Hss Hc Hsl E Hnd s).
  assert (HP3 := op3_potential iso mid ss pot vg V states Hin TV Nq).
  assert (WP : forall lam edge,
    (forall x y, valid3 N Nq Np x -> valid3 N Nq Np y ->
       sum3 N Nq Np (fun k => op3 true iso Np states (sw_C st) k x * op3 true iso Np states (sw_C st) k y)%R = (if same3 Nq Np x y then 1%R else 0%R) /\
       sum3 N Nq Np (fun k => pair_hamiltonian iso Np states p V x k * op3 true iso Np states (sw_C st) k y)%R = (lam y * op3 true iso Np states (sw_C st) x y)%R) ->
    (forall a iq i, valid3 N Nq Np (a, iq, i) -> energy_of_wave_packet (nth a states dummy_pw) i (sw_Eb st) (lam (a, iq, i)) (edge a i) (edge a (i + 1))) ->
    (forall a iq, a < N -> edges_of_wave Np (nth a states dummy_pw) (fun i => lam (a, iq, i)) (edge a)) -> ascending3 states Nq Np lam ->
    wave_packets states Nq Np p V3 (sw_Eb st) (op3 true iso Np states (sw_C st)) lam edge).
  { intros lam edge HC HW HM HO. unfold wave_packets; cbv zeta; split; [ | split; [ | split; [ | split; [ exact HO | split; [ exact HW | ] ] ] ] ].
    + intros x y Hx Hy. destruct (HC x y Hx Hy) as [A1 A2]. split; [ exact A1 | ]. rewrite <- A2. apply sum3_ext'. intros k Hk. unfold pair_hamiltonian.
      rewrite (HP3 x k Hx Hk). reflexivity.
    + intros a iq i a' iq' i' Hne. unfold op3 in Hne. destruct ((iq =? iq') && connects true (nth a states dummy_pw) (nth a' states dummy_pw)) eqn:Ec; [ | contradiction ].
      apply andb_prop in Ec. destruct Ec as [E1 E2]. apply Nat.eqb_eq in E1. auto.
    + intros a a' b b' iq iq' i k _ _ _ _ _ _ _ _ K1 K2 S1 S2. unfold op3. rewrite !Nat.eqb_refl, K1, K2. cbn [andb]. exact (elem2_pair iso Np (sw_C st) _ _ _ _ i k S1 S2).
    + intros a iq Ha _. exact (HM a iq Ha). }
  (* the cells *)
  assert (Hphys : forall s, In s states -> physical s /\ (J_2N s <= Jm)%Z) by (intros s Hs; exact (table_phys gg Jm mx iso ss s Hss (Hin s Hs))).
  destruct (run_facts diag gg Jm mx iso ss Np p V C0 e0 0%R st Hmx Hss HNp Lp LV LC Le Hsol E) as [HL _]. destruct (HL false) as [_ L1]. destruct (HL true) as [_ L2].
  cbn [pick] in L1, L2. unfold nbound, num_channels in L1, L2.
  assert (HJ : (0 <= Jm)%Z) by (destruct (construct_g_inv _ _ _ _ _ Hss); assumption).
  assert (L1' : Z.of_nat (length (fst (sw_e st))) = (num_2N_unco_states true iso Jm * Z.of_nat (Np + 1))%Z) by (rewrite L1; unfold num_2N_unco_states; destruct iso; unfold zn; lia).
  assert (L2' : Z.of_nat (length (snd (sw_e st))) = (num_2N_coup_states true iso Jm * Z.of_nat (2 * (Np + 1)))%Z) by (rewrite L2; unfold num_2N_coup_states; destruct iso; unfold zn; lia).
  assert (Cells := fun lam edge (PB : pair_boundaries iso Np (fst (sw_e st)) (snd (sw_e st)) states edge)
    (HW : forall a iq i, valid3 N Nq Np (a, iq, i) -> energy_of_wave_packet (nth a states dummy_pw) i (sw_Eb st) (lam (a, iq, i)) (edge a i) (edge a (i + 1))) =>
    list_of_cells iso Jm Np Nq (fst (sw_e st)) (snd (sw_e st)) q states (sw_Eb st) (os_E os) edge Hphys L1' L2' Hq PB
        (fun a k Ha Hk => proj1 (HW a 0 k (conj Ha (conj HNq Hk))))).
  destruct (Amp false [] []) as (CT & VC & r1 & c1' & v1 & G & ECT & EVC & Es' & EG & (lam0 & edge0 & HC0 & HW0 & HM0 & HO0 & PB0 & _) & _); [ discriminate | ].
  assert (r1 = rows' /\ c1' = cols' /\ v1 = vals') by (rewrite Es in Es'; injection Es' as <- <- <-; auto). destruct H as (-> & -> & ->). clear Es'.
  assert (WP0 := WP lam0 edge0 HC0 HW0 HM0 HO0).
  assert (Sim : (bu = true /\ breakup_cells true iso Np Nq (fst (sw_e st)) (snd (sw_e st)) q states (sw_Eb st) (os_E os) = Err /\
                  exists E, In E (os_E os) /\ (0 <= E + sw_Eb st)%R /\ forall a iq ip, ~ on_shell_cell edge0 q N Nq Np E a iq ip) \/
      exists bc cells ends, (if bu then do bu <- breakup_cells true iso Np Nq (fst (sw_e st)) (snd (sw_e st)) q states (sw_Eb st) (os_E os); Ok (os, Some bu) else Ok (os, None)) = Ok (os, bc) /\
        match bc with Some ce => ce | None => ([], []) end = (cells, ends) /\ (bu = false -> cells = [] /\ ends = []) /\
        (forall edge, pair_boundaries iso Np (fst (sw_e st)) (snd (sw_e st)) states edge -> bu = true -> breakup_list edge q N Nq Np (sw_Eb st) (os_E os) cells ends) /\
        (forall t, In t cells -> (0 <= fst (fst t) < Z.of_nat N)%Z)).
  { destruct bu.
    - destruct (Cells lam0 edge0 PB0 HW0) as [[B1 B2]|(cells & ends & B1 & B2 & B3)].
      + left. split; [ reflexivity | ]. split; [ exact B1 | exact B2 ].
      + right. exists (Some (cells, ends)), cells, ends. rewrite B1. cbn [obind]. split; [ reflexivity | ]. split; [ reflexivity | ]. split; [ discriminate | ]. split; [ | exact B3 ].
        intros edge PB _. destruct (list_of_cells iso Jm Np Nq (fst (sw_e st)) (snd (sw_e st)) q states (sw_Eb st) (os_E os) edge Hphys L1' L2' Hq PB) as [[B1' _]|(cells' & ends' & B1' & B2' & _)].
        * intros a k Ha Hk. rewrite !(pb_unique _ _ _ _ _ _ _ a _ PB PB0) by lia. exact (proj1 (HW0 a 0 k (conj Ha (conj HNq Hk)))).
        * congruence.
        * rewrite B1 in B1'. injection B1' as <- <-. exact B2'.
    - right. exists None, [], []. split; [ reflexivity | ]. split; [ reflexivity | ]. split; [ auto | ]. split; [ discriminate | intros t [] ]. }
  destruct Sim as [(Hbu & B1 & B2)|(bc & triples & ends & EB & Ebc & Bf & BL & Hal)].
  { left. rewrite Hbu, B1. cbn [obind]. split; [ reflexivity | ]. right. exists V, (sw_Eb st). split; [ exact EV | ]. split; [ exact HBe | ]. right. split; [ reflexivity | ].
    destruct B2 as (Ex & X1 & X2 & X3). exists os, (op3 true iso Np states (sw_C st)), lam0, edge0, Ex. auto. }
  rewrite EB. cbn [obind]. rewrite Ebc. rewrite Etbl. cbn [obind]. rewrite (aread_some tbl (Z.to_nat c) d Ed). cbn [obind]. fold ds energies G0.
  rewrite EG. cbn [obind]. rewrite ECT. cbn [obind]. rewrite EVC. cbn [obind].
  destruct (omap_cases (solver_cell N Nq Np) triples) as [(EO & t & Ht & Et)|(cells & EO & HF)].
  { intros t _. unfold solver_cell. destruct (_ && _)%bool; [ right; eexists; reflexivity | left; reflexivity ]. }
  { rewrite EO. cbn [obind]. right. left. split; [ reflexivity | ].
    assert (Hbu : bu = true) by (destruct bu; [ reflexivity | destruct (Bf eq_refl) as [-> _]; destruct Ht ]). split; [ exact Hbu | ].
    specialize (BL edge0 PB0 Hbu). destruct BL as (Z1 & Z2 & Z3 & Z4).
    destruct (cell_energy _ _ _ Z1 Z2 Z3 (fun k E HE => proj1 (Z4 k E HE)) t Ht) as (k & Ek & HEk & Hm).
    destruct (Z4 k Ek HEk) as (_ & Z5 & Z6).
    destruct (Rle_lt_dec 0 (Ek + sw_Eb st)) as [Hp|Hp]; [ | rewrite (Z5 Hp) in Hm; destruct Hm ].
    apply (proj2 (Z6 Hp)) in Hm. destruct Hm as (a & iq & ip & S1 & S2).
    exists V, (sw_Eb st), os, (op3 true iso Np states (sw_C st)), lam0, edge0, Ek, a, iq, ip, t.
    split; [ exact EV | ]. split; [ exact HBe | ]. split; [ exact Eos | ]. split; [ exact WP0 | ]. split; [ exact (nth_error_In _ _ HEk) | ]. split; [ exact Hp | ]. split; [ exact S1 | ]. split; [ exact S2 | ].
    intros Hg'. rewrite (solver_cell_grid N Nq Np t (Hal t Ht) Hg') in Et. discriminate Et. }
  rewrite EO. cbn [obind]. right. right. eexists. split; [ reflexivity | ].
  destruct (Amp bu ends cells) as (CT' & VC' & r1 & c1' & v1 & G' & ECT' & EVC' & Es' & EG' & (lam & edge & HC & HW & HM & HO & PB & HG) & Sys & Hterm & Hdir).
  { intros Hbu. destruct (BL edge0 PB0 Hbu) as (Z1 & Z2 & Z3 & Z4). assert (LL := F2_len _ _ _ HF).
    split; [ rewrite Z1; congruence | ]. split; [ | split ].
    - intros j Hj'. assert (EE1 : nth_error (os_E os) j = Some (nth j (os_E os) 0%R)) by (apply nth_error_nth'; lia). apply (Z4 j _ EE1).
    - replace (length (os_idx os)) with (length (os_E os)) by congruence. rewrite Z3, LL. apply le_n.
    - intros x Hx. destruct (In_nth_error _ _ Hx) as (k & Ek). destruct (nth_error triples k) as [t|] eqn:Et; [ | apply nth_error_None in Et; assert (k < length cells) by (apply nth_error_Some; congruence); lia ].
      assert (Ec := F2_nth _ _ _ k t x HF Et Ek). exact (solver_cell_valid N Nq Np t x ltac:(lia) ltac:(lia) Ec). }
  assert (r1 = rows' /\ c1' = cols' /\ v1 = vals' /\ CT' = CT /\ VC' = VC /\ G' = G) as (-> & -> & -> & -> & -> & ->).
  { rewrite Es in Es'. rewrite ECT in ECT'. rewrite EVC in EVC'. rewrite EG in EG'. injection Es' as <- <- <-. injection ECT' as <-. injection EVC' as <-. injection EG' as <-. repeat split. }
  set (s := mkfsys N Nq Np CT VC (mkcsc vals' rows' (coo_to_csr cols' D)) G (os_idx os) ds bu ends cells) in *. fold s.
  unfold staged. cbn [cr_states cr_V cr_swp cr_os cr_ds cr_U cr_UBU cr_bu cr_sys fst snd]. cbv zeta.
  split; [ reflexivity | ]. split; [ exact EV | ]. split; [ intros cm i Hch; exact (proj2 (HB cm i Hch)) | ]. split; [ exact HBe | ].
  split; [ exact Eos | ]. do 3 (split; [ congruence | ]). split; [ exact Hj | ]. split; [ exact Sds | ]. split; [ exact Hds | ].
  do 7 (split; [ reflexivity | ]). split; [ exact HF | ]. split; [ exact Sys | ]. split; [ apply Mc | ].
  split; [ destruct bu; [ apply Mc | reflexivity ] | ].
  exists (op3 true iso Np states (sw_C st)), lam, edge. split; [ exact (WP lam edge HC HW HM HO) | ]. split; [ exact (BL edge PB) | ]. split; [ split; [ exact PB | split; [ exact Hal | exact (proj1 HEb) ] ] | ].
  set (Cx := fun i j => op3 true iso Np states (sw_C st) (state_of Nq Np i) (state_of Nq Np j)) in *.
  unfold kernel_2PV, averaged_resolvent.
  set (K' := two_PV D (fun i j => PermWholeSpec.entry res (Z.of_nat i) (Z.of_nat j)) (fun i j => op3 true iso Np states V (state_of Nq Np i) (state_of Nq Np j))) in *.
  set (K := two_PV D P (fun i j => V3 (state_of Nq Np i) (state_of Nq Np j))).
  set (Res := fun j => resolvent_op D Cx (fun k => let '(a, iq, i) := state_of Nq Np k in
         cell_value (nth j (os_E os) 0 + sw_Eb st)%R (nth iq q 0%R) (nth (iq + 1) q 0%R) (edge a i) (edge a (i + 1)))).
  assert (SK : same_below D K K').
  { apply two_PV_same. intros x y Hx Hy. symmetry. apply HP3; apply state_of_valid; lia. }
  assert (SR : forall j, j < length (os_T os) -> same_below D (Res j) (resolvent_op D Cx (fun k => nth (j * D + k) G c0))).
  { intros j Hjl. apply resolvent_same; [ intros x y _ _; reflexivity | ]. intros k Hk. destruct (state_of_valid N Nq Np k ltac:(lia) ltac:(lia) Hk) as [Hv Hi].
    destruct (state_of Nq Np k) as [[a iq] i] eqn:Est. rewrite <- Hi. symmetry. apply HG; [ | exact Hv ].
    assert (EE1 : nth_error (os_E os) j = Some (nth j (os_E os) 0%R)) by (apply nth_error_nth'; lia).
    exact (map_nth_error (fun E => E + sw_Eb st)%R j _ EE1). }
  assert (Lii : length (os_idx os) = length (os_T os)) by congruence.
  split.
  - intros n e He. rewrite (Hterm n e He). rewrite Lii.
    assert (B : row_state s (e_row e) < D /\ e_col e < D /\ e_row e mod length (os_T os) < length (os_T os)).
    { destruct He as [He|He].
      - destruct (el_lt s true iso Jm mx c states V (sw_C st) Sys e (proj1 (elastic_in s true iso Jm mx c states V (sw_C st) Sys e) He)) as (B1 & B2 & _).
        split; [ exact B1 | ]. split; [ exact B2 | ]. apply Nat.mod_upper_bound. destruct He as (dr & dc & qq & _ & _ & Hqq & _). unfold s_nq in Hqq. cbn [s_q s] in Hqq. lia.
      - destruct (bu_lt s true iso Jm mx c states V (sw_C st) Sys e (proj1 (breakup_in s true iso Jm mx c states V (sw_C st) Sys e) He)) as (B1 & B2 & _).
        split; [ exact B1 | ]. split; [ exact B2 | ]. apply Nat.mod_upper_bound. destruct He as (_ & dr & qq & b & _ & Hqq & _). unfold s_nq in Hqq. cbn [s_q s] in Hqq. lia. }
    destruct B as (B1 & B2 & B3). apply between_same; [ intros x y _ _; reflexivity | | exact B1 | exact B2 ].
    apply sb_sym. apply born_same; [ exact SK | exact (SR _ B3) ].
  - intros solve U Hsolve LU. destruct (Hdir solve U Hsolve ltac:(rewrite Lii; exact LU)) as (U' & EU & LU' & HU).
    exists U'. split; [ exact EU | ]. split; [ exact LU' | ]. intros dr dc j Hdr Hdc Hjl Hreg.
    destruct (HU dr dc j Hdr Hdc ltac:(lia) (regular_same D _ _ _ _ SK (SR j Hjl) Hreg)) as (T & HT & HTu & EU1).
    exists T. split; [ exact (solution_same D _ _ _ _ T (sb_sym _ _ _ SK) (sb_sym _ _ _ (SR j Hjl)) HT) | ]. split.
    + intros T' HT'. apply HTu. exact (solution_same D _ _ _ _ T' SK (SR j Hjl) HT').
    + rewrite <- Lii. exact EU1.
Qed.

(* the direct solver *)
Variable solve : solve_t.
Hypothesis Msolve : solve_contract solve.
Let run' := channel_run diag sort_indexes solve mem cmem pmem iso mid Jm Nq q pot junk vg ss c inputs res.
Lemma chain :
  (run' = Err /\
   ((exists V cm i, potential_matrices true iso mid Jm pot junk vg (ss_states ss) Vu Vc = Ok V /\ is_channel iso (ss_states ss) cm i /\
       ~ bound_states_ok (is_deuteron_channel iso (ss_states ss) cm i) (fst (spectrum diag Np p V cm i))) \/
    (exists V Eb, potential_matrices true iso mid Jm pot junk vg (ss_states ss) Vu Vc = Ok V /\
       bound_energy iso (ss_states ss) (fun cm i => fst (spectrum diag Np p V cm i)) Eb /\ elastic_bins Nq q Eb inputs = Err))) \/
  exists r, run' = Ok r /\ cr_states r = states /\
    let Eb := sw_Eb (cr_swp r) in let os := cr_os r in let ds := cr_ds r in
    let ne := length (os_T os) in
    potential_matrices true iso mid Jm pot junk vg (ss_states ss) Vu Vc = Ok (cr_V r) /\
    (forall cm i, is_channel iso (ss_states ss) cm i ->
       bound_states_ok (is_deuteron_channel iso (ss_states ss) cm i) (fst (spectrum diag Np p (cr_V r) cm i))) /\
    bound_energy iso (ss_states ss) (fun cm i => fst (spectrum diag Np p (cr_V r) cm i)) Eb /\
    elastic_bins Nq q Eb inputs = Ok os /\
    length (os_q os) = ne /\ length (os_E os) = ne /\ length (os_idx os) = ne /\ length (cr_U r) = ne * length ds * length ds /\
    (forall j, j < ne -> let k := nth j (os_q os) 0%R in let b := nth j (os_idx os) 0 in
       b < Nq /\ (GridSpec.lower q b < k < GridSpec.upper q b)%R /\ com_momentum_of Mp (Mn + Mp + Eb) (nth j (os_T os) 0%R) k /\
       nth j (os_E os) 0%R = (3 * k * k / (4 * MN))%R) /\
    StronglySorted lt ds /\ (forall i, In i ds <-> i < N /\ is_deuteron (nth i states dummy_pw)) /\
    amplitudes_of states Nq Np p q (potential3 mid pot vg states) (fun i j => PermWholeSpec.entry res (Z.of_nat i) (Z.of_nat j))
      Eb (os_E os) (os_idx os) ds (cr_U r).
Proof.
  unfold run', channel_run. destruct (stages false) as [[ER HE]|[[_ [Hb _]]|(r & ER & HR)]]; [ | discriminate Hb | ]; unfold run in ER; rewrite ER; cbn [obind].
  - left. split; [ reflexivity | ]. destruct HE as [HE|(V & Eb & E1 & E2 & [E3|[Hb _]])]; [ left; exact HE | | discriminate Hb ].
    right. exists V, Eb. auto.
  - right. destruct HR as (R1 & HR). cbv zeta in HR. destruct HR as (R2 & R3 & R4 & R5 & R6 & R7 & R8 & R9 & R10 & R11 & _ & _ & _ & _ & _ & _ & _ & _ & _ & RU & _ & C & lam & edge & HW & _ & _ & _ & HD').
    destruct (HD' solve (cr_U r) Msolve) as (U & EU & LU & HU); [ lia | ]. rewrite EU. cbn [obind].
    eexists. split; [ reflexivity | ]. cbn [with_amplitudes cr_states cr_V cr_swp cr_os cr_ds cr_U cr_UBU cr_bu cr_sys]. split; [ exact R1 | ]. cbv zeta.
    do 7 (split; [ assumption | ]). split; [ rewrite LU; exact RU | ]. do 3 (split; [ assumption | ]).
    unfold amplitudes_of. cbv zeta. rewrite R7. exists C, lam, edge. split; [ exact HW | ]. exact HU.
Qed.
End Chain.

(* the arguments of [chain] in the order of the statement of C91 *)
Definition chain_c91 diag sort_indexes solve mem cmem pmem gg Jm mx iso mid ss c states Nq q pot junk vg inputs res H1 H2 H3 H4 H5 H6 H7 H8 H9 H10 H11 H12 H13 H14 H15 H16 H17 H18 H19 :=
  chain diag sort_indexes mem cmem pmem gg Jm mx iso mid ss c states Nq q pot junk vg inputs res H1 H3 H4 H5 H6 H7 H8 H9 H10 H11 H12 H13 H14 H15 H16 H17 H18 H19 solve H2.
