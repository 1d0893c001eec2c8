(* C97: the breakup result file, and the whole program with breakup. *)
From Coq Require Import Reals Lra Lia String Permutation Sorted ZifyBool.
From Verif Require Import Common ArrayLib NameModel ParamsModel ParamsSpec DriverModel DriverSpec DriverProofs InputModel InputSpec PWModel PWSpec SwpModel SwpSpec SparseModel GridModel GridSpec
  PermModel PermSpec PermWholeModel PermWholeSpec GeoModel GeoSpec
  PioModel PioSpec PotentialModel PotentialSpec KernelModel KernelSpec ResolventModel SwpWholeModel SwpWholeSpec SpectralSpec OnShellModel OnShellSpec
  FaddeevModel FaddeevSpec DetModel DenseModel PadeSpec AgsSpec IterSpec ChainModel ChainSpec ReproModel ReproSpec OutputModel OutputSpec TextModel TextSpec ProgramModel ProgramSpec ProgramProofs ProgramFinal.
From Verif Require SwpProofs SpectralFinal KernelPropsLemmas GeoPropsLemmas ChainFinal IterFinal OutputPropsLemmas OutputProofs OnShellProofs OnShellPropsLemmas ResolventArrayProofs ResolventSpec TextFileProofs PWSpec OmpCols FaddeevComplete FaddeevStatements.
Open Scope nat_scope.
Open Scope list_scope.

(* ---------- energies in order ---------- *)
Lemma sorted_nth (l : list R) : StronglySorted Rle l -> forall i j, i <= j -> j < length l -> (nth i l 0 <= nth j l 0)%R.
Proof.
  intros H. induction H as [|x l Hl IH Hx]; intros i j Hij Hj; [ cbn in Hj; lia | ]. destruct i as [|i], j as [|j]; cbn [nth].
  - apply Rle_refl.
  - rewrite Forall_forall in Hx. apply Hx. apply nth_In. cbn in Hj. lia.
  - lia.
  - apply IH; cbn in Hj; lia.
Qed.
Lemma energies_sorted Nq q Eb inputs os : 1 <= Nq -> partition_from_zero Nq q -> (- (Mn + Mp) < Eb)%R -> elastic_bins Nq q Eb inputs = Ok os -> StronglySorted Rle (os_E os).
Proof.
  intros HN HP HE E. destruct (OnShellPropsLemmas.bins_bracket Nq q Eb inputs HN HP HE) as (mid & _ & _ & _ & Hos).
  destruct (Hos os E) as (S & In & _ & _ & Eq & EE). rewrite EE, Eq, map_map.
  assert (Hb : forall b, List.In b (os_bins os) -> b < Nq) by (intros b Hb; apply In in Hb; destruct Hb as (T & j & _ & Hj & _ & [-> | ->]); lia).
  clear In Hos Eq EE E. induction S as [|b l Hl IH Hall]; cbn [map]; constructor; [ apply IH; intros x Hx; apply Hb; right; exact Hx | ].
  rewrite Forall_forall in Hall |- *. intros y Hy. apply in_map_iff in Hy. destruct Hy as (b' & <- & Hb'). specialize (Hall b' Hb').
  assert (Lb : b' < Nq) by (apply Hb; right; exact Hb').
  assert (Hlt : (OnShellSpec.mid_momentum Eb (GridSpec.lower q b) (GridSpec.upper q b) < OnShellSpec.mid_momentum Eb (GridSpec.lower q b') (GridSpec.upper q b'))%R).
  { apply (OnShellProofs.mid_k_lt Eb HE). 
    assert (A := OnShellProofs.part_lu Nq q b HP ltac:(lia)). assert (A' := OnShellProofs.part_lu Nq q b' HP Lb).
    assert (B := OnShellProofs.part_le Nq q (b + 1) b' HP ltac:(lia) ltac:(lia)). unfold GridSpec.lower, GridSpec.upper in *. nra. }
  assert (K := OnShellProofs.mid_k_nonneg Eb (GridSpec.lower q b) (GridSpec.upper q b)).
  assert (0 < MN)%R by (unfold MN, Mn, Mp; lra). unfold Rdiv. apply Rmult_le_compat_r; [ left; apply Rinv_0_lt_compat; lra | ]. nra.
Qed.
Lemma per_energy_of_list edge q N Nq Np Eb Es cells ends : StronglySorted Rle Es -> breakup_list edge q N Nq Np Eb Es cells ends -> per_energy (length Es) (length cells) ends.
Proof.
  intros S (B1 & B2 & B3 & B4). split; [ exact B1 | ]. split; [ exact B2 | ]. split; [ exact B3 | ].
  assert (En : forall j, j < length Es -> nth_error Es j = Some (nth j Es 0%R)) by (intros j Hj; apply nth_error_nth'; exact Hj).
  split; [ intros j Hj; apply (B4 j _ (En j Hj)) | ].
  intros j j' Hj Hj' H. destruct (B4 j _ (En j ltac:(lia))) as (_ & C1 & _). destruct (B4 j' _ (En j' Hj')) as (D0 & _ & D1).
  assert (Hle := sorted_nth Es S j j' Hj Hj').
  destruct (Rle_lt_dec 0 (nth j Es 0 + Eb)%R) as [Hp|Hp].
  - destruct (D1 ltac:(lra)) as [D2 _]. destruct (Nat.eq_dec (nth (j' + 1) ends 0) (nth j' ends 0)) as [E|E]; [ | lia ]. exfalso. apply D2. rewrite E, Nat.sub_diag. reflexivity.
  - specialize (C1 Hp). exfalso. apply (f_equal (@length _)) in C1. rewrite firstn_length, skipn_length in C1. cbn in C1. 
    destruct (B4 j _ (En j ltac:(lia))) as (C0 & _). lia.
Qed.
(* ---------- the boundaries of a cell ---------- *)
Lemma cell_bins iso Jm Np Nq e_unco e_coup q states edge a iq ip :
  (forall s, In s states -> physical s /\ (J_2N s <= Jm)%Z) -> pair_boundaries iso Np e_unco e_coup states edge -> length q = Nq + 1 ->
  valid3 (length states) Nq Np (a, iq, ip) -> forall t, t = (Z.of_nat a, Z.of_nat iq, Z.of_nat ip) ->
  bins_of states (map rc q) (map rc e_unco) (map rc e_coup) true iso Np t (rc (GridSpec.lower q iq)) (rc (GridSpec.upper q iq)) (rc (edge a ip)) (rc (edge a (ip + 1))) /\
  forall ql qu el eu, bins_of states (map rc q) (map rc e_unco) (map rc e_coup) true iso Np t ql qu el eu ->
    ql = rc (GridSpec.lower q iq) /\ qu = rc (GridSpec.upper q iq) /\ el = rc (edge a ip) /\ eu = rc (edge a (ip + 1)).
Proof.
  intros Hs PB Lq (Ha & Hiq & Hip) t ->.
  assert (Es : nth_error states a = Some (nth a states dummy_pw)) by (apply nth_error_nth'; exact Ha).
  destruct (Hs _ (nth_error_In _ _ Es)) as [Hph HJ].
  destruct (ResolventArrayProofs.e_block_spec iso Np Jm _ Hph HJ (ResolventArrayProofs.phys_T3 _ Hph)) as (coup & i & Em & _ & Eb).
  destruct (PB a _ Es) as (coup' & i' & Em' & Hk). rewrite Em in Em'. injection Em' as <- <-.
  assert (Z1 : forall {A} (l : list A) n v, nth_error l n = Some v -> forall z, z = Z.of_nat n -> zread l z = Ok v).
  { intros A l n v Hn z ->. unfold zread. replace (Z.of_nat n <? 0)%Z with false by lia. rewrite Nat2Z.id. apply aread_some. exact Hn. }
  assert (R1 : zread states (Z.of_nat a) = Ok (nth a states dummy_pw)) by (apply (Z1 _ states a); [ exact Es | reflexivity ]).
  assert (R2 : zread (map rc q) (Z.of_nat iq) = Ok (rc (GridSpec.lower q iq))).
  { apply (Z1 _ _ iq); [ | reflexivity ]. apply map_nth_error. unfold GridSpec.lower. apply nth_error_nth'. lia. }
  assert (R3 : zread (map rc q) (Z.of_nat iq + 1) = Ok (rc (GridSpec.upper q iq))).
  { apply (Z1 _ _ (iq + 1)); [ | lia ]. apply map_nth_error. unfold GridSpec.upper. apply nth_error_nth'. lia. }
  set (off := ResolventSpec.e_offset Np coup i (nth a states dummy_pw)) in *.
  assert (Emap : forall b : bool, (if b then map rc e_coup else map rc e_unco) = map rc (if b then e_coup else e_unco)) by (intros [|]; reflexivity).
  assert (R4 : zread (if coup then map rc e_coup else map rc e_unco) (Z.of_nat off + Z.of_nat ip) = Ok (rc (edge a ip))).
  { rewrite Emap. apply (Z1 _ _ (off + ip)); [ | lia ]. apply map_nth_error. apply Hk. lia. }
  assert (R5 : zread (if coup then map rc e_coup else map rc e_unco) (Z.of_nat off + Z.of_nat ip + 1) = Ok (rc (edge a (ip + 1)))).
  { rewrite Emap. apply (Z1 _ _ (off + (ip + 1))); [ | lia ]. apply map_nth_error. apply Hk. lia. }
  split.
  - exists (nth a states dummy_pw), coup, (Z.of_nat off). repeat (split; [ assumption | ]). exact R5.
  - intros ql qu el eu (s' & coup' & off' & B1 & B2 & B3 & B4 & B5 & B6). rewrite R1 in B1. injection B1 as <-. change (Z.of_nat Np) with (zn Np) in B2. rewrite Eb in B2. injection B2 as <- <-.
    rewrite R2 in B3. rewrite R3 in B4. rewrite R4 in B5. rewrite R5 in B6. injection B3 as <-. injection B4 as <-. injection B5 as <-. injection B6 as <-. auto.
Qed.

(* ---------- the text ---------- *)
Lemma breakup_printed {V} (re im : V -> double) twoJ P model Np Nq Eb h data rows (dh : string * string) (dv : V) :
  TextFileProofs.head_ok h -> length data = length h * rows -> exists text, breakup_file V re im twoJ P model Np Nq Eb h data rows (length h) = Ok text.
Proof.
  intros HH HL. unfold TextFileProofs.head_ok in HH. rewrite Forall_forall in HH. unfold breakup_file.
  destruct (TextFileProofs.header_line_ok h) as (hl & -> & _); [ rewrite Forall_forall; intros x Hx; apply (HH x Hx) | intros x Hx; apply (HH x Hx) | ]. cbn [obind].
  destruct (ofold_inv (fun _ (_ : list string) => True) (fun acc r => do s <- bu_row V re im h data (length h) r; Ok (acc ++ [s])) (seq 0 rows) []) as (rs & -> & _).
  - exact I.
  - intros d r t acc E _. assert (Hr : r < rows). { assert (In r (seq 0 rows)) as Hi by (rewrite E, in_app_iff; right; now left). apply in_seq in Hi. lia. }
    rewrite (TextFileProofs.bu_row_ok V re im h data r dh dv) by (try nia; rewrite Forall_forall; intros x Hx; apply (HH x Hx)). cbn [obind]. eexists. split; [ reflexivity | exact I ].
  - cbn [obind]. eexists. reflexivity.
Qed.

(* ---------- the breakup file ---------- *)
Lemma breakup_stored mc cfg ss g J mx iso c psi states r q edge :
  iso = cflag cfg F_isospin_breaking_1S0 ->
  (1 <= mx)%Z -> Z.Odd mx -> construct_symmetric_pw_states_g g J mx iso = Ok ss -> (0 <= Z.of_nat c < ss_N_chn ss)%Z -> channel_slice ss (Z.of_nat c) = Ok states ->
  (0 <= cint cfg F_Np_WP)%Z -> (0 <= cint cfg F_Nq_WP)%Z -> cr_states r = states ->
  let os := cr_os r in let ds := cr_ds r in let ne := length (os_T os) in let Np := cnat cfg F_Np_WP in let Nq := cnat cfg F_Nq_WP in
  let cells := fst (cr_bu r) in let ends := snd (cr_bu r) in
  NoDup ds -> (forall i, In i ds -> i < length states) -> length (os_q os) = ne -> length (os_E os) = ne -> length (os_idx os) = ne ->
  (forall j, j < ne -> nth j (os_idx os) 0 < Nq) -> length q = Nq + 1 ->
  per_energy ne (length cells) ends -> pair_boundaries iso Np (fst (sw_e (cr_swp r))) (snd (sw_e (cr_swp r))) states edge ->
  (forall t, In t cells -> exists a iq ip, t = (Z.of_nat a, Z.of_nat iq, Z.of_nat ip) /\ valid3 (length states) Nq Np (a, iq, ip)) ->
  length ds * length cells <= length (cr_UBU r) ->
  exists file, breakup_result mc cfg psi Np Nq q r = Ok file /\
    breakup_text mc cfg q c psi states (sw_Eb (cr_swp r)) os ds edge cells ends (cr_UBU r) file.
Proof.
  intros Ei Hmx Hodd Hss Hc Hsl HNp HNq Es os ds ne Np Nq cells ends Hnd Hds Lq LE Li Hi Lqq HP PB Hv HU.
  destruct (KernelPropsLemmas.slice_states g J mx iso ss (Z.of_nat c) states Hmx Hodd Hss Hc Hsl) as [Hst _].
  destruct (GeoPropsLemmas.channel_ok g J mx iso ss (Z.of_nat c) states Hmx Hodd Hss Hc Hsl) as [Hne _].
  destruct (first_state states Hne) as (s0 & A0 & H0 & A1).
  assert (Hs0 : chn_of s0 = nth_chn (Z.of_nat c)) by (apply (Hst s0); exact H0).
  assert (Hphys : forall s, In s states -> physical s /\ (J_2N s <= J)%Z) by (intros s Hs; apply Hst in Hs; destruct Hs as [[Hs1 Hs2] _]; split; [ exact Hs1 | apply Hs2 ]).
  assert (Cell := fun a iq ip (H : valid3 (length states) Nq Np (a, iq, ip)) => cell_bins iso J Np Nq (fst (sw_e (cr_swp r))) (snd (sw_e (cr_swp r))) q states edge a iq ip Hphys PB Lqq H _ eq_refl).
  destruct (OutputPropsLemmas.breakup_table states ds cells ends ne c0 (fun v => mc_pmom mc (fst v)) (cr_UBU r) (map rc (os_T os)) (map rc (os_E os)) (map rc (os_q os)) (os_idx os)
    (map rc q) (map rc (fst (sw_e (cr_swp r)))) (map rc (snd (sw_e (cr_swp r)))) true iso Np) as (headers & data & rows & cols & row & col & B1 & B2 & B3 & B4 & B5 & B6 & B7 & B8 & B9); try assumption.
  { intros t Ht. destruct (Hv t Ht) as (a & iq & ip & -> & HV). do 4 eexists. exact (proj1 (Cell a iq ip HV)). }
  { apply map_length. } { rewrite map_length. exact LE. } { rewrite map_length. exact Lq. }
  { intros i Hin. rewrite map_length, Lqq. destruct (In_nth _ _ 0 Hin) as (j & Hj & <-). specialize (Hi j ltac:(lia)). lia. }
  assert (HH := TextFileProofs.breakup_headers_ok _ _ _ _ _ _ _ _ _ _ _ _ _ _ _ _ _ _ _ _ _ _ B1).
  assert (En : forall j, j < ne -> [nth_error (map rc (os_T os)) j; nth_error (map rc (os_E os)) j; nth_error (map rc (os_q os)) j; nth_error (map rc q) (nth j (os_idx os) 0); nth_error (map rc q) (nth j (os_idx os) 0 + 1)]
     = map Some [rc (nth j (os_T os) 0%R); rc (nth j (os_E os) 0%R); rc (nth j (os_q os) 0%R); rc (GridSpec.lower q (nth j (os_idx os) 0)); rc (GridSpec.upper q (nth j (os_idx os) 0))]).
  { intros j Hj. assert (Hij := Hi j Hj).
    assert (X : forall (l : list R) i, i < length l -> nth_error (map rc l) i = Some (rc (nth i l 0%R))) by (intros l i Hl; apply map_nth_error, nth_error_nth'; exact Hl).
    rewrite !X by (unfold ne in *; lia). reflexivity. }
  subst cols.
  destruct (breakup_printed (mc_re mc) (mc_im mc) (two_J_3N s0) (P_3N s0) (cstr cfg F_potential_model) (Z.of_nat Np) (Z.of_nat Nq) (mc_Eb mc (sw_Eb (cr_swp r))) headers data rows
    (EmptyString, EmptyString) c0 HH B3) as (text & ET).
  assert (J1 : two_J_3N s0 = fst (nth_chn (Z.of_nat c))) by (rewrite <- Hs0; reflexivity).
  assert (J2 : P_3N s0 = snd (nth_chn (Z.of_nat c))) by (rewrite <- Hs0; reflexivity).
  assert (E1 : Z.of_nat (cnat cfg F_Np_WP) = cint cfg F_Np_WP) by (unfold cnat, cint in *; lia).
  assert (E2 : Z.of_nat (cnat cfg F_Nq_WP) = cint cfg F_Nq_WP) by (unfold cnat, cint in *; lia).
  assert (EP : negb ((P_3N s0 =? 1) || (P_3N s0 =? -1))%Z = false) by (rewrite J2; unfold nth_chn; cbn [snd]; destruct (Z.even (Z.of_nat c)); reflexivity).
  eexists. split.
  - unfold breakup_result. rewrite Es, <- Ei. fold os ds cells ends Np Nq ne. rewrite B1. cbn [obind]. rewrite A0. cbn [obind]. rewrite EP, ET. cbn [obind]. reflexivity.
  - unfold breakup_text. cbv zeta. unfold Np, Nq in ET |- *. rewrite E1, E2, J1, J2 in *. destruct (nth_chn (Z.of_nat c)) as [twoJ parity]. cbn [fst snd] in *.
    exists headers, data, rows, (length headers), row, col. split; [ reflexivity | ]. split; [ exact ET | ]. split; [ reflexivity | ]. split; [ exact B3 | ].
    split; [ rewrite <- OutputPropsLemmas.energy_columns_eq; exact B4 | ]. split; [ | split; [ exact B6 | split; [ exact B7 | split; [ exact B8 | ] ] ] ].
    + intros d j b a iq ip Hd Hj Hb Ecell. destruct (B5 j d b Hj Hd Hb) as (t & a' & iq' & ip' & sc & sr & ql & qu & el & eu & u & T1 & T2 & T3 & T4 & T5 & T6 & T7 & T8 & T9 & T10).
      rewrite Ecell in T1. injection T1 as <-. injection T2 as <- <- <-.
      destruct (Hv _ (nth_error_In _ _ Ecell)) as (a1 & iq1 & ip1 & Et & HV). injection Et as X1 X2 X3. apply Nat2Z.inj in X1, X2, X3. subst a1 iq1 ip1.
      destruct (proj2 (Cell a iq ip HV) _ _ _ _ T5) as (-> & -> & -> & ->). split; [ exact T7 | ].
      assert (Esc : sc = nth a states dummy_pw).
      { unfold zread in T3. replace (Z.of_nat a <? 0)%Z with false in T3 by lia. rewrite Nat2Z.id in T3. unfold aread in T3.
        destruct (nth_error states a) eqn:En2; [ | discriminate T3 ]. injection T3 as <-. rewrite (nth_error_nth _ _ dummy_pw En2). reflexivity. }
      split; [ rewrite T8, OutputPropsLemmas.columns_eq, Esc, (nth_error_nth _ _ dummy_pw T4); reflexivity | ].
      split; [ | rewrite T10; apply En; exact Hj ].
      rewrite T9. cbn [map fst rc]. rewrite (nth_error_nth _ _ c0 T6). reflexivity.
    + intros r' Hr. destruct (B9 r' Hr) as (j & Hj & Ej). exists j. split; [ exact Hj | ]. rewrite Ej. apply En. exact Hj.
Qed.

(* ---------- one parameter set ---------- *)
Section OneSet.
Variables (lb : library) (sphP : Z -> Z -> R -> R) (mc : machine) (fs : file_system) (cfg : config R) (f : fwp) (ss : statespace) (g J mx : Z) (iso : bool) (m : potential)
  (c : nat) (psi : Z) (params : list R) (res : list (elem R)) (states : list pw) (energies : list R).
Let Np := cnat cfg F_Np_WP. Let Nq := cnat cfg F_Nq_WP. Let p := f_pWP f. Let q := f_qWP f.
Let Nphi := cnat cfg F_Nphi. Let Nx := cnat cfg F_Nx. Let D := length states * Nq * Np.
Let vg := vgrid_of (grid_settings cfg) f. Let E := mc_env mc c psi. Let pot := lb_interaction lb m params.
Let stage := set_stage lb mc fs cfg f ss m c psi params res.
Hypothesis EJ : J = cint cfg F_J_2N_max.
Hypothesis Emx : mx = cint cfg F_two_J_3N_max.
Hypothesis Ei : iso = cflag cfg F_isospin_breaking_1S0.
Hypothesis Hmx : (1 <= mx)%Z.
Hypothesis Hodd : Z.Odd mx.
Hypothesis Hss : construct_symmetric_pw_states_g g J mx iso = Ok ss.
Hypothesis Hc : (0 <= Z.of_nat c < ss_N_chn ss)%Z.
Hypothesis Hsl : channel_slice ss (Z.of_nat c) = Ok states.
Hypothesis Hg : vgrid_ok (cflag cfg F_midpoint_approx) vg.
Hypothesis Pq : partition_from_zero Nq q.
Hypothesis Hpot : hermitian_model pot (ss_states ss).
Hypothesis Hen : energy_file fs cfg energies.
Hypothesis Hin : forall row col v, In (row, col, v) res -> (0 <= row < Z.of_nat D)%Z /\ (0 <= col < Z.of_nat D)%Z.
Let P := fun i j => PermWholeSpec.entry res (Z.of_nat i) (Z.of_nat j).
Hypothesis Hop : permutation_operator (lb_sixj lb) (lb_ninej lb) (lb_threej lb) sphP (lb_roots lb Nphi) (lb_dleg lb Nphi) (lb_gx lb Nx) (lb_gw lb Nx) p q states Nq Np P.
Notation defect := (breakup_defect lb sphP cfg vg q ss pot E (mc_getrf mc c psi) (mc_strays mc c psi) energies c).

Lemma set_breakup : settings_ok false true cfg -> (Z.of_nat D <= 2 ^ 28)%Z -> iterating_ok cfg vg ss pot E (mc_getrf mc c psi) (mc_strays mc c psi) ->
  defect \/
  (stage = ([], Err) /\ breakup_stops cfg vg q ss pot E energies c) \/
  exists out, stage = (out, Ok tt) /\ breakup_files lb sphP mc cfg vg q ss pot energies c psi out.
Proof.
  intros [_ _ Sd _ _ _ Sb HJ HNp HNq Hmid] HD [Msort Mgetrf (fe & fb & Estr) Mm Mc Mpt Hdiag].
  unfold spectra_ok in Hdiag. cbv zeta in Hdiag. 
  destruct (Classical_Prop.classic defect) as [Hd|Hd]; [ left; exact Hd | right ].
  rewrite <- EJ, <- Ei in *.
  assert (Hoff : ~ cell_off_grid (en_diag E) (en_mem E) J iso (cflag cfg F_midpoint_approx) ss states Nq q pot (en_junk E) vg energies).
  { intros H. apply Hd. unfold breakup_defect. cbv zeta. rewrite <- EJ, <- Ei. exists states. split; [ exact Hsl | left; exact H ]. }
  assert (Hno : forall r, channel_stages (en_diag E) (en_sort E) (en_mem E) (en_cmem E) (en_pmem E) true iso (cflag cfg F_midpoint_approx) J Nq q pot (en_junk E) vg ss (Z.of_nat c) energies res = Ok r ->
    ~ (length (os_T (cr_os r)) < length (cr_ds r) /\ fst (cr_bu r) <> [] \/ stopped_early (determinant (mc_getrf mc c psi)) (mc_strays mc c psi) r)).
  { intros r Hr H. apply Hd. unfold breakup_defect. cbv zeta. rewrite <- EJ, <- Ei. exists states. split; [ exact Hsl | right ]. exists res, r. split; [ exact Hin | ]. split; [ exact Hop | ]. split; [ exact Hr | exact H ]. }
  rewrite Estr in Hno. 
  destruct (IterFinal.breakup_run (en_diag E) (en_sort E) (en_mem E) (en_cmem E) (en_pmem E) (mc_getrf mc c psi) fe fb g J mx iso (cflag cfg F_midpoint_approx) ss (Z.of_nat c) states Nq q pot (en_junk E) vg energies res)
    as [[HE1 HR]|[[HE1 [HR|(r & Hr & HR)]]|(r & Er & HR & HL)]]; try assumption.
  { change (vg_Np vg) with Np. unfold Np, cnat, cint in *. lia. } { unfold Nq, cnat, cint in *. lia. }
  - left. split.
    + unfold stage, set_stage. rewrite (solve_stage_iterate lb mc fs cfg f ss J iso m c psi params res energies EJ Ei Hen Sd), Sb, Estr. fold E Nq q pot vg. rewrite HE1. reflexivity.
    + unfold breakup_stops. exists states. rewrite <- EJ, <- Ei. split; [ exact Hsl | exact HR ].
  - exfalso. exact (Hoff HR).
  - exfalso. exact (Hno r Hr HR).
  - right. destruct HR as (Es & HR). cbv zeta in HR. destruct HR as (Q1 & Q2 & Q3 & Q4 & Q5 & Q6 & Q7 & Q8 & QB & Q9 & Q10 & Q11 & Q12).
    destruct HL as (C & lam & edge & HI & PB & Hal & HEb).
    assert (Hsmall : ~ (length (os_T (cr_os r)) < length (cr_ds r) /\ fst (cr_bu r) <> [])).
    { assert (Er' := Er). unfold channel_iterate in Er'.
      destruct (channel_stages (en_diag E) (en_sort E) (en_mem E) (en_cmem E) (en_pmem E) true iso (cflag cfg F_midpoint_approx) J Nq q pot (en_junk E) vg ss (Z.of_nat c) energies res) as [r0| | |] eqn:Est; try discriminate Er'.
      cbn [obind] in Er'. destruct (pade_method_solve _ _ _ _ _) as [[U UBU]| | |]; try discriminate Er'. cbn [obind] in Er'. injection Er' as <-.
      cbn [with_amplitudes cr_ds cr_os cr_bu]. intros H. apply (Hno r0 eq_refl). left. exact H. }
    assert (HBL := HI). destruct HBL as (HW & _ & HBL & _).
    assert (Hcells : forall t, In t (fst (cr_bu r)) -> exists a iq ip, t = (Z.of_nat a, Z.of_nat iq, Z.of_nat ip) /\ valid3 (length states) Nq Np (a, iq, ip)).
    { intros t Ht. destruct HBL as (Z1 & Z2 & Z3 & Z4). destruct (ChainFinal.cell_energy _ _ _ Z1 Z2 Z3 (fun k E HE => proj1 (Z4 k E HE)) t Ht) as (k & Ek & HEk & Hm).
      destruct (Z4 k Ek HEk) as (_ & Z5 & Z6). destruct (Rle_lt_dec 0 (Ek + sw_Eb (cr_swp r))) as [Hp|Hp]; [ | rewrite (Z5 Hp) in Hm; destruct Hm ].
      apply (proj2 (Z6 Hp)) in Hm. destruct Hm as (a & iq & ip & S1 & S2).
      destruct (Classical_Prop.classic (in_grid (vg_Np vg) Nq (snd (fst t), snd t))) as [Hg'|Hg'].
      - destruct t as [[a' iq'] ip']. cbn [fst snd] in *. destruct Hg' as [G1 G2]. cbn [fst snd] in *. assert (A := Hal _ Ht). cbn [fst] in A.
        exists (Z.to_nat a'), (Z.to_nat iq'), (Z.to_nat ip'). rewrite !Z2Nat.id by lia. split; [ reflexivity | ]. change (vg_Np vg) with Np in G2. repeat split; lia.
      - exfalso. apply Hoff. exists (cr_V r), (sw_Eb (cr_swp r)), (cr_os r), C, lam, edge, Ek, a, iq, ip, t.
        split; [ exact Q1 | ]. split; [ exact Q3 | ]. split; [ exact Q4 | ]. split; [ exact HW | ]. split; [ exact (nth_error_In _ _ HEk) | ]. split; [ exact Hp | ]. split; [ exact S1 | ]. split; [ exact S2 | exact Hg' ]. }
    assert (Lqq : length q = Nq + 1) by apply Pq.
    assert (HNq' : 1 <= Nq) by (unfold Nq, cnat, cint in *; lia).
    assert (HP : per_energy (length (os_T (cr_os r))) (length (fst (cr_bu r))) (snd (cr_bu r))).
    { rewrite <- Q6. apply (per_energy_of_list edge q (length states) Nq (vg_Np vg) (sw_Eb (cr_swp r)) (os_E (cr_os r)) (fst (cr_bu r)) (snd (cr_bu r))); [ | exact HBL ].
      exact (energies_sorted Nq q (sw_Eb (cr_swp r)) energies (cr_os r) HNq' Pq HEb Q4). }
    assert (HU : length (cr_ds r) * length (fst (cr_bu r)) <= length (cr_UBU r)).
    { rewrite QB. destruct (fst (cr_bu r)) as [|t l] eqn:Ec; [ cbn; lia | ]. apply Nat.mul_le_mono_r. destruct (Nat.le_gt_cases (length (cr_ds r)) (length (os_T (cr_os r)))) as [H|H]; [ exact H | ].
      exfalso. apply Hsmall. split; [ exact H | discriminate ]. }
    destruct (elastic_stored mc cfg ss g J mx iso c psi states r) as (file & Ef & Tf); try assumption; [ unfold cint in *; lia | unfold cint in *; lia | intros i Hi; apply Q11 in Hi; apply Hi | ].
    destruct (breakup_stored mc cfg ss g J mx iso c psi states r q edge) as (file' & Ef' & Tf'); try assumption;
      [ unfold cint in *; lia | unfold cint in *; lia | | intros i Hi; apply Q11 in Hi; apply Hi | intros j Hj; apply (Q9 j Hj) | ].
    { clear -Q10. induction Q10 as [|x l Hl IH Hx]; constructor; [ | exact IH ]. intros H. rewrite Forall_forall in Hx. apply Hx in H. lia. }
    exists [file; file']. split.
    + unfold stage, set_stage. rewrite (solve_stage_iterate lb mc fs cfg f ss J iso m c psi params res energies EJ Ei Hen Sd), Sb, Estr. fold E Nq q pot vg. rewrite Er.
      cbn [quiet rbind app]. fold Np Nq in Ef, Ef'. fold Np. rewrite Ef. cbn [written]. rewrite Ef'. reflexivity.
    + exists file, file', states, (sw_Eb (cr_swp r)), (cr_os r), (cr_ds r), P, (cr_U r), (fst (cr_bu r)), (snd (cr_bu r)), (cr_UBU r), C, lam, edge. split; [ reflexivity | ].
      split; [ apply (facts lb sphP mc cfg f ss g J mx iso m c psi params res states energies EJ Emx Ei Hmx Hodd Hss Hc Hsl Hop _ _ _ (cr_V r)); assumption | ].
      split; [ exact Q8 | ]. split; [ exact HI | ]. split; [ exact Hcells | ]. split; [ exact Tf | exact Tf' ].
Qed.

(* nothing can go wrong below the breakup threshold *)
Lemma defect_above : settings_ok false true cfg -> (Z.of_nat D <= 2 ^ 28)%Z -> iterating_ok cfg vg ss pot E (mc_getrf mc c psi) (mc_strays mc c psi) -> defect ->
  exists V Eb os En, fresh_potential (en_mem E) iso (cflag cfg F_midpoint_approx) J pot (en_junk E) vg (ss_states ss) = Ok V /\
    bound_energy iso (ss_states ss) (fun cm i => fst (spectrum (en_diag E) (vg_Np vg) (vg_pWP vg) V cm i)) Eb /\ elastic_bins Nq q Eb energies = Ok os /\ In En (os_E os) /\ (0 <= En + Eb)%R.
Proof.
  intros [_ _ Sd _ _ _ Sb HJ HNp HNq Hmid] HD [Msort Mgetrf (fe & fb & Estr) Mm Mc Mpt Hdiag] Hd.
  unfold spectra_ok in Hdiag. cbv zeta in Hdiag. unfold breakup_defect in Hd. cbv zeta in Hd. rewrite <- EJ, <- Ei in *.
  destruct Hd as (st & Hst & Hd). assert (st = states) as -> by congruence. destruct Hd as [Hoff|(res' & r & Hin' & _ & Hr & Hd)].
  - destruct Hoff as (V & Eb & os & C & lam & edge & En & a & iq & ip & t & H1 & H2 & H3 & _ & H5 & H6 & _). exists V, Eb, os, En. auto.
  - apply Classical_Prop.NNPP. intros HN.
    assert (HNp' : 3 <= vg_Np vg) by (change (vg_Np vg) with Np; unfold Np, cnat, cint in *; lia). assert (HNq' : 1 <= Nq) by (unfold Nq, cnat, cint in *; lia).
    assert (HAS := IterFinal.all_stages (en_diag E) (en_sort E) (en_mem E) (en_cmem E) (en_pmem E) g J mx iso (cflag cfg F_midpoint_approx) ss (Z.of_nat c) states Nq q pot (en_junk E) vg energies res'
      Msort Mm Mc Mpt Hmx Hodd Hss Hc Hsl Hmid Hpot Hg HNp' HNq' Pq HD Hin' Hdiag true).
    destruct HAS as [[E1 _]|[[E1 _]|(r' & E1 & HS)]]; [ unfold Nq in *; congruence | unfold Nq in *; congruence | ].
    assert (r' = r) as -> by (unfold Nq in *; congruence).
    assert (HDs := IterFinal.staged_dim (en_diag E) (en_mem E) fe fb g J mx iso (cflag cfg F_midpoint_approx) ss (Z.of_nat c) states Nq q pot (en_junk E) vg energies res' Hmx Hodd Hss Hc Hsl HNp' HNq' HD Hin' true r HS).
    destruct HS as (_ & HS). cbv zeta in HS.
    destruct HS as (R2 & R3 & R4 & R5 & R6 & R7 & R8 & R9 & R10 & R11 & S1 & S2 & S3 & S4 & S5 & S6 & S7 & S8 & Sys & RU & RB & C & lam & edge & HW & HB & _).
    assert (Hbelow : forall En, In En (os_E (cr_os r)) -> (En + sw_Eb (cr_swp r) < 0)%R).
    { intros En HEn. apply Rnot_le_lt. intros Hle. apply HN. exists (cr_V r), (sw_Eb (cr_swp r)), (cr_os r), En. auto. }
    assert (Hnil : fst (cr_bu r) = []).
    { destruct (HB eq_refl) as (B1 & B2 & B3 & B4). destruct (fst (cr_bu r)) as [|t0 l] eqn:Ec; [ reflexivity | exfalso ].
      destruct (ChainFinal.cell_energy _ _ _ B1 B2 B3 (fun k E HE => proj1 (B4 k E HE)) t0 (or_introl eq_refl)) as (k & Ek & HEk & Hm).
      destruct (B4 k Ek HEk) as (_ & Z5 & _). rewrite (Z5 (Hbelow Ek (nth_error_In _ _ HEk))) in Hm. destruct Hm. }
    destruct Hd as [[_ Hd]|(nc & nch & v & Ech & Erun & _ & Hd)]; [ exact (Hd Hnil) | ].
    rewrite Estr in Erun.
    assert (Hz : s_nBU (cr_sys r) = 0) by (unfold s_nBU; rewrite <- (ChainFinal.F2_len _ _ _ S8), Hnil; reflexivity).
    destruct (FaddeevComplete.complete _ _ _ _ _ _ _ _ _ Sys HDs _ _ _ _ _ _ Hz Ech Erun) as [K1 K2].
    destruct Hd as [(e & He & Hf)|(e & He & _)]; [ rewrite (K1 e He) in Hf; discriminate Hf | exact (K2 e He) ].
Qed.

(* where reading the cell before the array is undefined, as in the language: only a task without amplitudes gets to its end *)
Lemma set_breakup_strict fe fb sb : settings_ok false true cfg -> (Z.of_nat D <= 2 ^ 28)%Z -> iterating_ok cfg vg ss pot E (mc_getrf mc c psi) (Some fe, Some fb) -> mc_strays mc c psi = (None, sb) ->
  (exists out o, stage = (out, o) /\ o <> Ok tt) \/ exists states Eb os ds P, channel_facts lb sphP E cfg vg q ss pot energies c states Eb os ds P /\ (ds = [] \/ os_T os = []).
Proof.
  intros [_ _ Sd _ _ _ Sb HJ HNp HNq Hmid] HD [Msort Mgetrf _ Mm Mc Mpt Hdiag] Estr.
  unfold spectra_ok in Hdiag. cbv zeta in Hdiag. rewrite <- EJ, <- Ei in *.
  assert (HNp' : 3 <= vg_Np vg) by (change (vg_Np vg) with Np; unfold Np, cnat, cint in *; lia). assert (HNq' : 1 <= Nq) by (unfold Nq, cnat, cint in *; lia).
  assert (HAS := IterFinal.all_stages (en_diag E) (en_sort E) (en_mem E) (en_cmem E) (en_pmem E) g J mx iso (cflag cfg F_midpoint_approx) ss (Z.of_nat c) states Nq q pot (en_junk E) vg energies res
      Msort Mm Mc Mpt Hmx Hodd Hss Hc Hsl Hmid Hpot Hg HNp' HNq' Pq HD Hin Hdiag true).
  assert (Estage : forall x, channel_iterate (en_diag E) (en_sort E) (en_mem E) (en_cmem E) (en_pmem E) (determinant (mc_getrf mc c psi)) (None, sb) true iso (cflag cfg F_midpoint_approx) J Nq q pot (en_junk E) vg ss (Z.of_nat c) energies res = x ->
    (forall r, x <> Ok r) -> exists out o, stage = (out, o) /\ o <> Ok tt).
  { intros x Ex Hx. unfold stage, set_stage. rewrite (solve_stage_iterate lb mc fs cfg f ss J iso m c psi params res energies EJ Ei Hen Sd), Sb, Estr. fold E Nq q pot vg. rewrite Ex.
    destruct x as [r| | |]; [ exfalso; exact (Hx r eq_refl) | .. ]; cbn [quiet rbind]; do 2 eexists; (split; [ reflexivity | discriminate ]). }
  unfold channel_iterate in Estage.
  destruct HAS as [[E1 _]|[[E1 _]|(r & E1 & HS)]]; [ left; rewrite E1 in Estage; apply (Estage _ eq_refl); discriminate | left; rewrite E1 in Estage; apply (Estage _ eq_refl); discriminate | ].
  assert (HDs := IterFinal.staged_dim (en_diag E) (en_mem E) fe fb g J mx iso (cflag cfg F_midpoint_approx) ss (Z.of_nat c) states Nq q pot (en_junk E) vg energies res Hmx Hodd Hss Hc Hsl HNp' HNq' HD Hin true r HS).
  destruct HS as (_ & HS). cbv zeta in HS.
  destruct HS as (R2 & R3 & R4 & R5 & R6 & R7 & R8 & R9 & R10 & R11 & S1 & S2 & S3 & S4 & S5 & S6 & S7 & S8 & Sys & RU & RB & _).
  assert (F : channel_facts lb sphP E cfg vg q ss pot energies c states (sw_Eb (cr_swp r)) (cr_os r) (cr_ds r) P)
    by (apply (facts lb sphP mc cfg f ss g J mx iso m c psi params res states energies EJ Emx Ei Hmx Hodd Hss Hc Hsl Hop _ _ _ (cr_V r)); assumption).
  destruct (Nat.eq_dec (length (cr_ds r)) 0) as [Z1|Z1]; [ | destruct (Nat.eq_dec (length (os_T (cr_os r))) 0) as [Z2|Z2] ].
  - right. do 5 eexists. split; [ exact F | ]. left. apply length_zero_iff_nil. exact Z1.
  - right. do 5 eexists. split; [ exact F | ]. right. apply length_zero_iff_nil. exact Z2.
  - left. rewrite E1 in Estage. cbn [obind] in Estage.
    rewrite (FaddeevSolveProofs.strict_ub _ _ _ _ _ _ _ _ _ Sys HDs (determinant (mc_getrf mc c psi)) sb (cr_U r) (cr_UBU r)) in Estage;
      [ | unfold s_nd; rewrite S5; lia | unfold s_nq; rewrite S4; lia ].
    apply (Estage _ eq_refl). discriminate.
Qed.
End OneSet.

(* ---------- the whole ---------- *)
Lemma first_defect {T O} (good : T -> O -> Prop) (defect : T -> Prop) l outs : Forall2 (fun t out => good t out \/ defect t) l outs ->
  Forall2 good l outs \/ exists n t, nth_error l n = Some t /\ Forall2 good (firstn n l) (firstn n outs) /\ defect t.
Proof.
  intros F. induction F as [|t out l outs [H|H] F IH]; [ left; constructor | | right; exists 0, t; split; [ reflexivity | split; [ constructor | exact H ] ] ].
  destruct IH as [IH|(n & t' & A & B & D)]; [ left; constructor; assumption | ]. right. exists (S n), t'. split; [ exact A | ]. split; [ cbn [firstn]; constructor; assumption | exact D ].
Qed.
Section Whole.
Variables (lb : library) (sphP : Z -> Z -> R -> R) (mc : machine) (fs : file_system) (args : list string) (cfg : config R) (m : potential) (ss : statespace)
  (p q : list R) (rows : list (list R)) (energies : list R).
Let iso := cflag cfg F_isospin_breaking_1S0. Let J := cint cfg F_J_2N_max. Let mid := cflag cfg F_midpoint_approx.
Let Np := cnat cfg F_Np_WP. Let Nq := cnat cfg F_Nq_WP.
Let vg := packet_points mid (lb_gx lb) (lb_gw lb) Np (cnat cfg F_Np_per_WP) p.
Let pot psi := lb_interaction lb m (parameters_of lb cfg m rows psi).
Let todo := tasks (walk_of cfg) (channels_of cfg ss).
Theorem program_breakup : library_ok lb sphP -> set_run_parameters R stod fs (mc_omp mc) 1%R 100%R args = Ok cfg -> settings_ok false true cfg ->
  fetch_potential_ptr (cstr cfg F_potential_model) = Some m -> construct_symmetric_pw_states_g (mc_g mc) J (cint cfg F_two_J_3N_max) iso = Ok ss ->
  boundaries_of fs (cstr cfg F_p_grid_type) (cstr cfg F_p_grid_filename) Np (vdbl (cfg F_chebyshev_s)) (vdbl (cfg F_chebyshev_t)) p ->
  boundaries_of fs (cstr cfg F_q_grid_type) (cstr cfg F_q_grid_filename) Nq (vdbl (cfg F_chebyshev_s)) (vdbl (cfg F_chebyshev_t)) q ->
  (cstr cfg F_q_grid_type = "custom"%string -> cstr cfg F_p_grid_type = "custom"%string) ->
  parameter_table fs cfg m rows -> energy_file fs cfg energies -> (forall n, length (mc_grid mc n) = n) ->
  (forall c states, In c (channels_of cfg ss) -> channel_slice ss (Z.of_nat c) = Ok states ->
    (Z.of_nat (length states * Nq * Np) <= 2 ^ 28)%Z /\ building_ok lb cfg (Z.of_nat c) states (mc_penv mc c) (mc_sched mc c)) ->
  (forall c psi, In (c, psi) todo -> hermitian_model (pot psi) (ss_states ss) /\ iterating_ok cfg vg ss (pot psi) (mc_env mc c psi) (mc_getrf mc c psi) (mc_strays mc c psi)) ->
  files_until (fun t => breakup_files lb sphP mc cfg vg q ss (pot (snd t)) energies (fst t) (snd t))
    (fun t => breakup_stops cfg vg q ss (pot (snd t)) (mc_env mc (fst t) (snd t)) energies (fst t))
    (fun t => breakup_defect lb sphP cfg vg q ss (pot (snd t)) (mc_env mc (fst t) (snd t)) (mc_getrf mc (fst t) (snd t)) (mc_strays mc (fst t) (snd t)) energies (fst t))
    todo (main_program lb mc fs args).
Proof.
  intros Hlib Hcfg Hset Hm Hss Bp Bq Hpq Htab Hen Hgrid Hbuild Hsolve.
  assert (Hbuild' : forall c states, In c (channels_of cfg ss) -> channel_slice ss (Z.of_nat c) = Ok states ->
    (Z.of_nat (length states * Nq * Np) < 2 ^ 31)%Z /\ building_ok lb cfg (Z.of_nat c) states (mc_penv mc c) (mc_sched mc c)).
  { intros c states Hc Hsl. destruct (Hbuild c states Hc Hsl) as [A B]. split; [ lia | exact B ]. }
  set (good := fun t : nat * Z => breakup_files lb sphP mc cfg vg q ss (pot (snd t)) energies (fst t) (snd t)).
  set (stops := fun t : nat * Z => breakup_stops cfg vg q ss (pot (snd t)) (mc_env mc (fst t) (snd t)) energies (fst t)).
  set (defect := fun t : nat * Z => breakup_defect lb sphP cfg vg q ss (pot (snd t)) (mc_env mc (fst t) (snd t)) (mc_getrf mc (fst t) (snd t)) (mc_strays mc (fst t) (snd t)) energies (fst t)).
  destruct (program_went lb sphP mc fs args cfg m ss p q rows Hlib Hcfg Hm Hss Bp Bq Hpq Htab Hgrid Hbuild'
    (fun c psi last o => last = [] /\ o = Err /\ stops (c, psi) \/ defect (c, psi))
    (fun c psi out => good (c, psi) out \/ defect (c, psi))) as [(outs & A & E)|(n & t & outs & last & o & A & B & E & Ho & Hs)].
  { intros c psi f res states Ht Hc Efp Efq Evg Hvg Hmx Hodd Hc' Hsl HD Hr Ho. destruct (Hsolve c psi Ht) as [Hh Hs]. cbv zeta.
    pose proof (set_breakup lb sphP mc fs cfg f ss (mc_g mc) J (cint cfg F_two_J_3N_max) iso m c psi (parameters_of lb cfg m rows psi) res states energies) as S.
    cbv zeta in S. rewrite Efp, Efq, Evg in S.
    destruct S as [Hd|[[E1 E2]|(out & E1 & E2)]]; auto; try (unfold mid in Hvg; exact Hvg).
    { apply boundaries_partition in Bq. exact Bq. }
    { apply (Hbuild c states Hc Hsl). }
    { destruct (set_stage lb mc fs cfg f ss m c psi (parameters_of lb cfg m rows psi) res) as [out o] eqn:Estage.
      destruct o as [[]| | |]; [ right; exists out; split; [ reflexivity | right; exact Hd ] | left.. ]; do 2 eexists; (split; [ reflexivity | ]); (split; [ discriminate | right; exact Hd ]). }
    { left. exists [], Err. split; [ exact E1 | ]. split; [ discriminate | ]. left. auto. }
    { right. exists out. split; [ exact E1 | left; exact E2 ]. } }
  - assert (A' : Forall2 (fun t out => good t out \/ defect t) todo outs) by (revert A; apply OnShellPropsLemmas.F2_impl; intros [c psi] out; exact (fun H => H)).
    rewrite E. destruct (first_defect _ _ _ _ A') as [H|(n & t & H1 & H2 & H3)].
    + left. split; [ reflexivity | ]. exists outs. split; [ exact H | reflexivity ].
    + right. exists n, t, (firstn n outs), (concat (skipn n outs)). split; [ exact H1 | ]. split; [ exact H2 | ]. split; [ cbn [fst]; rewrite <- concat_app, firstn_skipn; reflexivity | right; exact H3 ].
  - assert (B' : Forall2 (fun t out => good t out \/ defect t) (firstn n todo) outs) by (revert B; apply OnShellPropsLemmas.F2_impl; intros [c psi] out; exact (fun H => H)).
    destruct t as [c psi]. cbn [fst snd] in Hs. rewrite E. destruct (first_defect _ _ _ _ B') as [H|(n' & t & H1 & H2 & H3)].
    + right. exists n, (c, psi), outs, last. split; [ exact A | ]. split; [ exact H | ]. split; [ reflexivity | ]. destruct Hs as [(-> & -> & Hs)|Hs]; [ left; auto | right; exact Hs ].
    + right. assert (Ln : n' < n). { assert (n' < length (firstn n todo)) by (apply nth_error_Some; congruence). rewrite firstn_length in H. lia. }
      rewrite OmpCols.nth_error_firstn_lt in H1 by exact Ln. rewrite firstn_firstn, Nat.min_l in H2 by lia.
      exists n', t, (firstn n' outs), (concat (skipn n' outs) ++ last). split; [ exact H1 | ]. split; [ exact H2 | ].
      split; [ cbn [fst]; rewrite app_assoc, <- concat_app, firstn_skipn; reflexivity | right; exact H3 ].
Qed.
(* below the breakup threshold nothing is undefined *)
Theorem program_below : library_ok lb sphP -> set_run_parameters R stod fs (mc_omp mc) 1%R 100%R args = Ok cfg -> settings_ok false true cfg ->
  fetch_potential_ptr (cstr cfg F_potential_model) = Some m -> construct_symmetric_pw_states_g (mc_g mc) J (cint cfg F_two_J_3N_max) iso = Ok ss ->
  boundaries_of fs (cstr cfg F_p_grid_type) (cstr cfg F_p_grid_filename) Np (vdbl (cfg F_chebyshev_s)) (vdbl (cfg F_chebyshev_t)) p ->
  boundaries_of fs (cstr cfg F_q_grid_type) (cstr cfg F_q_grid_filename) Nq (vdbl (cfg F_chebyshev_s)) (vdbl (cfg F_chebyshev_t)) q ->
  (cstr cfg F_q_grid_type = "custom"%string -> cstr cfg F_p_grid_type = "custom"%string) ->
  parameter_table fs cfg m rows -> energy_file fs cfg energies -> (forall n, length (mc_grid mc n) = n) ->
  (forall c states, In c (channels_of cfg ss) -> channel_slice ss (Z.of_nat c) = Ok states ->
    (Z.of_nat (length states * Nq * Np) <= 2 ^ 28)%Z /\ building_ok lb cfg (Z.of_nat c) states (mc_penv mc c) (mc_sched mc c)) ->
  (forall c psi, In (c, psi) todo -> hermitian_model (pot psi) (ss_states ss) /\ iterating_ok cfg vg ss (pot psi) (mc_env mc c psi) (mc_getrf mc c psi) (mc_strays mc c psi)) ->
  (forall c psi, In (c, psi) todo -> ~ reaches_breakup cfg vg q ss (pot psi) (mc_env mc c psi) energies) ->
  files_until (fun t => breakup_files lb sphP mc cfg vg q ss (pot (snd t)) energies (fst t) (snd t))
    (fun t => breakup_stops cfg vg q ss (pot (snd t)) (mc_env mc (fst t) (snd t)) energies (fst t)) (fun _ => False) todo (main_program lb mc fs args).
Proof.
  intros Hlib Hcfg Hset Hm Hss Bp Bq Hpq Htab Hen Hgrid Hbuild Hsolve Hlow.
  assert (Hbuild' : forall c states, In c (channels_of cfg ss) -> channel_slice ss (Z.of_nat c) = Ok states ->
    (Z.of_nat (length states * Nq * Np) < 2 ^ 31)%Z /\ building_ok lb cfg (Z.of_nat c) states (mc_penv mc c) (mc_sched mc c)).
  { intros c states Hc Hsl. destruct (Hbuild c states Hc Hsl) as [A B]. split; [ lia | exact B ]. }
  set (good := fun t : nat * Z => breakup_files lb sphP mc cfg vg q ss (pot (snd t)) energies (fst t) (snd t)).
  set (stops := fun t : nat * Z => breakup_stops cfg vg q ss (pot (snd t)) (mc_env mc (fst t) (snd t)) energies (fst t)).
  destruct (program_went lb sphP mc fs args cfg m ss p q rows Hlib Hcfg Hm Hss Bp Bq Hpq Htab Hgrid Hbuild'
    (fun c psi last o => last = [] /\ o = Err /\ stops (c, psi)) (fun c psi out => good (c, psi) out)) as [(outs & A & E)|(n & t & outs & last & o & A & B & E & Ho & Hs)].
  { intros c psi f res states Ht Hc Efp Efq Evg Hvg Hmx Hodd Hc' Hsl HD Hr Ho. destruct (Hsolve c psi Ht) as [Hh Hs]. cbv zeta.
    assert (HD' : (Z.of_nat (length states * Nq * Np) <= 2 ^ 28)%Z) by apply (Hbuild c states Hc Hsl).
    assert (Hq : partition_from_zero Nq q) by (apply boundaries_partition in Bq; exact Bq).
    pose proof (set_breakup lb sphP mc fs cfg f ss (mc_g mc) J (cint cfg F_two_J_3N_max) iso m c psi (parameters_of lb cfg m rows psi) res states energies) as S.
    pose proof (defect_above lb sphP mc cfg f ss (mc_g mc) J (cint cfg F_two_J_3N_max) iso m c psi (parameters_of lb cfg m rows psi) res states energies) as S'.
    cbv zeta in S, S'. rewrite Efp, Efq, Evg in S. rewrite Efq, Evg in S'.
    destruct S as [Hd|[[E1 E2]|(out & E1 & E2)]]; auto; try (unfold mid in Hvg; exact Hvg).
    { exfalso. apply (Hlow c psi Ht). unfold reaches_breakup. eapply S'; eauto. }
    { left. exists [], Err. split; [ exact E1 | ]. split; [ discriminate | ]. auto. }
    { right. exists out. split; [ exact E1 | exact E2 ]. } }
  - rewrite E. left. split; [ reflexivity | ]. exists outs. split; [ | reflexivity ]. revert A. apply OnShellPropsLemmas.F2_impl. intros [c psi] out. exact (fun H => H).
  - right. destruct t as [c psi]. cbn [fst snd] in Hs. destruct Hs as (-> & -> & Hs). rewrite E. exists n, (c, psi), outs, []. split; [ exact A | ].
    split; [ revert B; apply OnShellPropsLemmas.F2_impl; intros [c' psi'] out; exact (fun H => H) | ]. split; [ reflexivity | ]. left. auto.
Qed.

Theorem program_breakup_strict : library_ok lb sphP -> set_run_parameters R stod fs (mc_omp mc) 1%R 100%R args = Ok cfg -> settings_ok false true cfg ->
  fetch_potential_ptr (cstr cfg F_potential_model) = Some m -> construct_symmetric_pw_states_g (mc_g mc) J (cint cfg F_two_J_3N_max) iso = Ok ss ->
  boundaries_of fs (cstr cfg F_p_grid_type) (cstr cfg F_p_grid_filename) Np (vdbl (cfg F_chebyshev_s)) (vdbl (cfg F_chebyshev_t)) p ->
  boundaries_of fs (cstr cfg F_q_grid_type) (cstr cfg F_q_grid_filename) Nq (vdbl (cfg F_chebyshev_s)) (vdbl (cfg F_chebyshev_t)) q ->
  (cstr cfg F_q_grid_type = "custom"%string -> cstr cfg F_p_grid_type = "custom"%string) ->
  parameter_table fs cfg m rows -> energy_file fs cfg energies -> (forall n, length (mc_grid mc n) = n) ->
  (forall c states, In c (channels_of cfg ss) -> channel_slice ss (Z.of_nat c) = Ok states ->
    (Z.of_nat (length states * Nq * Np) <= 2 ^ 28)%Z /\ building_ok lb cfg (Z.of_nat c) states (mc_penv mc c) (mc_sched mc c)) ->
  (forall c psi, In (c, psi) todo -> hermitian_model (pot psi) (ss_states ss) /\
     (exists memory, iterating_ok cfg vg ss (pot psi) (mc_env mc c psi) (mc_getrf mc c psi) memory) /\ fst (mc_strays mc c psi) = None) ->
  snd (main_program lb mc fs args) = Ok tt -> forall c psi, In (c, psi) todo ->
  exists states Eb os ds P, channel_facts lb sphP (mc_env mc c psi) cfg vg q ss (pot psi) energies c states Eb os ds P /\ (ds = [] \/ os_T os = []).
Proof.
  intros Hlib Hcfg Hset Hm Hss Bp Bq Hpq Htab Hen Hgrid Hbuild Hsolve Hrun.
  assert (Hbuild' : forall c states, In c (channels_of cfg ss) -> channel_slice ss (Z.of_nat c) = Ok states ->
    (Z.of_nat (length states * Nq * Np) < 2 ^ 31)%Z /\ building_ok lb cfg (Z.of_nat c) states (mc_penv mc c) (mc_sched mc c)).
  { intros c states Hc Hsl. destruct (Hbuild c states Hc Hsl) as [A B]. split; [ lia | exact B ]. }
  destruct (program_went lb sphP mc fs args cfg m ss p q rows Hlib Hcfg Hm Hss Bp Bq Hpq Htab Hgrid Hbuild' (fun c psi last o => True)
    (fun c psi out => exists states Eb os ds P, channel_facts lb sphP (mc_env mc c psi) cfg vg q ss (pot psi) energies c states Eb os ds P /\ (ds = [] \/ os_T os = [])))
    as [(outs & A & E)|(n & t & outs & last & o & A & B & E & Ho & _)].
  { intros c psi f res states Ht Hc Efp Efq Evg Hvg Hmx Hodd Hc' Hsl HD Hr Ho. destruct (Hsolve c psi Ht) as (Hh & ([me mb] & Hs) & Estr). cbv zeta.
    destruct (io_strays _ _ _ _ _ _ _ Hs) as (fe & fb & [= -> ->]). destruct (mc_strays mc c psi) as [se sb] eqn:Es. cbn [fst] in Estr. subst se.
    assert (HD' : (Z.of_nat (length states * Nq * Np) <= 2 ^ 28)%Z) by apply (Hbuild c states Hc Hsl).
    assert (Hq : partition_from_zero Nq q) by (apply boundaries_partition in Bq; exact Bq).
    pose proof (set_breakup_strict lb sphP mc fs cfg f ss (mc_g mc) J (cint cfg F_two_J_3N_max) iso m c psi (parameters_of lb cfg m rows psi) res states energies) as S.
    cbv zeta in S. rewrite Efp, Efq, Evg in S.
    destruct (set_stage lb mc fs cfg f ss m c psi (parameters_of lb cfg m rows psi) res) as [out o] eqn:Estage.
    assert (X : (exists out' o', (out, o) = (out', o') /\ o' <> Ok tt) \/ exists states Eb os ds P, channel_facts lb sphP (mc_env mc c psi) cfg vg q ss (pot psi) energies c states Eb os ds P /\ (ds = [] \/ os_T os = []))
      by (eapply S; eauto).
    destruct X as [(out' & o' & [= -> ->] & Ho')|HX]; [ left; eauto | ].
    destruct o as [[]| | |]; [ right; eauto | left.. ]; do 2 eexists; (split; [ reflexivity | ]); (split; [ discriminate | exact I ]). }
  - intros c psi Ht. assert (F := F2_ex _ _ _ _ (fun a b (H : _) => H) A). 
    rewrite Forall_forall in F. exact (F (c, psi) Ht).
  - rewrite E in Hrun. cbn [snd] in Hrun. contradiction.
Qed.
End Whole.
