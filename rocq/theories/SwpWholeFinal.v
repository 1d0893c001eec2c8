From Coq Require Import Reals Lra Lia.
From Verif Require Import Common ArrayLib PWModel PWSpec PWPropsLemmas PWChnProofs SwpModel SwpSpec SwpProofs SwpDriverProofs SwpPropsLemmas GridSpec
  KernelModel KernelProofs SwpWholeModel SwpWholeSpec SwpWholeProofs.
Open Scope nat_scope.

Lemma free_pair Np p : length p = Np + 1 -> 1 <= Np -> exists H0u H1 H0c,
  free_hamiltonian Np p (repeat 0%R Np) 0 = Ok H0u /\ free_hamiltonian Np p (repeat 0%R (2 * Np)) 0 = Ok H1 /\ free_hamiltonian Np p H1 Np = Ok H0c /\
  (forall cm, length (pick cm (H0u, H0c)) = dim2 cm Np) /\
  (forall cm x, x < dim2 cm Np -> nth x (pick cm (H0u, H0c)) 0%R = bin_kinetic p (x mod Np)).
Proof.
  intros Lp H1. destruct (free_full Np p 0 (repeat 0%R Np) Lp ltac:(rewrite repeat_length; lia)) as (Hu & Eu & Lu & Vu & _).
  destruct (free_full Np p 0 (repeat 0%R (2 * Np)) Lp ltac:(rewrite repeat_length; lia)) as (Ha & Ea & La & Va & _).
  rewrite repeat_length in Lu, La.
  destruct (free_full Np p Np Ha Lp ltac:(lia)) as (Hc & Ec & Lc & Vc & Oc).
  exists Hu, Ha, Hc. split; [ exact Eu | ]. split; [ exact Ea | ]. split; [ exact Ec | ]. split.
  - intros [|]; cbn [pick fst snd dim2]; lia.
  - intros [|] x Hx; cbn [pick fst snd dim2] in *.
    + destruct (Nat.lt_ge_cases x Np) as [Hl|Hl].
      * rewrite Oc by lia. rewrite Nat.mod_small by exact Hl. apply (Va x Hl).
      * replace x with (Np + (x - Np)) by lia. rewrite Vc by lia. f_equal. replace (Np + (x - Np)) with (x - Np + 1 * Np) by lia.
        rewrite Nat.mod_add by lia. rewrite Nat.mod_small by lia. reflexivity.
    + rewrite Nat.mod_small by exact Hx. apply (Vu x Hx).
Qed.

Lemma eigno_lt cm Np k : k < dim2 cm Np -> eigenvalue_no cm Np k < dim2 cm Np.
Proof. unfold dim2, eigenvalue_no. destruct cm; [ destruct (Nat.ltb_spec k Np) | ]; lia. Qed.
Lemma eigno_inj cm Np k l : k < dim2 cm Np -> l < dim2 cm Np -> (eigenvalue_no cm Np k =? eigenvalue_no cm Np l) = (k =? l).
Proof.
  unfold dim2, eigenvalue_no. intros Hk Hl.
  destruct (Nat.eqb_spec k l) as [->|Hne]; [ apply Nat.eqb_refl | ]. apply Nat.eqb_neq.
  destruct cm; [ destruct (Nat.ltb_spec k Np), (Nat.ltb_spec l Np) | ]; lia.
Qed.
Lemma raw_eigenbasis Np cm i A w z C : eigen_decomposition (dim2 cm Np) A w z -> raw_C Np cm i z C ->
  eigenbasis (dim2 cm Np) A (fun x k => nth (i * dim2 cm Np * dim2 cm Np + (x * dim2 cm Np + k)) C 0%R) (fun k => nth (eigenvalue_no cm Np k) w 0%R).
Proof.
  intros (Lw & Lz & _ & E & O) RC k Hk. unfold raw_C in RC. cbv zeta in RC. set (N := dim2 cm Np) in *. assert (Hk' := eigno_lt cm Np k Hk). split.
  - intros x Hx. fold N in Hk'. rewrite (RC x k Hx Hk). rewrite <- (E x _ Hx Hk'). apply GridPropsLemmas.sum_ext. intros y Hy. rewrite (RC y k Hy Hk). reflexivity.
  - intros l Hl. rewrite <- (eigno_inj cm Np k l Hk Hl). rewrite <- (O _ _ Hk' (eigno_lt cm Np l Hl)). apply GridPropsLemmas.sum_ext.
    intros y Hy. rewrite (RC y k Hy Hk), (RC y l Hy Hl). reflexivity.
Qed.
Lemma raw_bins Np cm i (flag : bool) (D : Prop) w e : 3 <= Np -> length w = dim2 cm Np -> (flag = true <-> D) -> right_bound_states w flag ->
  raw_e Np cm i flag w e -> channel_bins Np cm D w (fun j => nth (i * nbound cm Np + j) e 0%R).
Proof.
  intros HNp Lw HD RB RE Inc NZ lam.
  assert (Mono : forall a b, a < b < Np -> eigenvalue_no cm Np a < eigenvalue_no cm Np b < length w).
  { intros a b Hab. rewrite Lw. unfold eigenvalue_no, dim2. destruct cm; [ destruct (Nat.ltb_spec a Np), (Nat.ltb_spec b Np) | ]; lia. }
  assert (I1 : forall a b, a < b < Np -> (lam a < lam b)%R) by (intros a b Hab; apply Inc, Mono, Hab).
  assert (Z0 : eigenvalue_no cm Np 0 = 0) by (unfold eigenvalue_no; destruct cm; [ destruct (Nat.ltb_spec 0 Np) | ]; lia).
  assert (Pos : forall k, 1 <= k < length w -> (0 < nth k w 0)%R).
  { intros k Hk. destruct flag; cbn [right_bound_states] in RB.
    - destruct RB as (m & Hm & Hn & Ho). destruct (Nat.eq_dec k m) as [->|Hne].
      + exfalso. specialize (Ho 0 ltac:(lia) ltac:(lia)). specialize (Inc 0 m ltac:(lia)). lra.
      + specialize (Ho k ltac:(lia) Hne). specialize (NZ k ltac:(lia)). lra.
    - specialize (RB k ltac:(lia)). specialize (NZ k ltac:(lia)). lra. }
  split; [ | split ].
  - intros Dt. assert (Ef : flag = true) by (apply HD; exact Dt). subst flag. apply dbins_from_bnd; [ exact HNp | intros j Hj; apply (RE j Hj) | exact I1 | | ].
    + unfold lam. rewrite Z0. destruct RB as (m & Hm & Hn & Ho). destruct (Nat.eq_dec m 0) as [->|Hne]; [ exact Hn | ].
      specialize (Ho 0 ltac:(lia) ltac:(lia)). specialize (Inc 0 m ltac:(lia)). lra.
    + apply Pos. specialize (Mono 0 1 ltac:(lia)). lia.
  - intros Dt. assert (Ef : flag = false) by (destruct flag; [ exfalso; apply Dt, HD; reflexivity | reflexivity ]). subst flag.
    apply bins_from_bnd; [ lia | intros j Hj; apply (RE j Hj) | exact I1 | ].
    unfold lam. rewrite Z0. specialize (RB 0). specialize (NZ 0). assert (0 < length w) by (rewrite Lw; unfold dim2; destruct cm; lia).
    specialize (RB H). specialize (NZ H). lra.
  - intros ->. apply bins_from_bnd; [ lia | | | ].
    + intros j Hj. destruct (RE j Hj) as [_ B]. specialize (B eq_refl). rewrite Nat.add_assoc. exact B.
    + intros a b Hab. apply Inc. rewrite Lw. unfold eigenvalue_no, dim2. destruct (Nat.ltb_spec (Np + a) Np), (Nat.ltb_spec (Np + b) Np); lia.
    + apply Pos. rewrite Lw. unfold eigenvalue_no, dim2. destruct (Nat.ltb_spec (Np + 0) Np); lia.
Qed.

Lemma bnd_midpoints Np flag e lam : 3 <= Np -> (forall j, j <= Np -> e j = bnd lam Np flag j) -> midpoint_bins Np (if flag then 2 else 1) e lam.
Proof.
  intros HNp H. split.
  - intros j Hj. rewrite H by (destruct flag; lia). unfold bnd. destruct j as [|[|j]]; [ destruct flag; lia | destruct flag; [ lia | ] | ].
    + destruct (Nat.ltb_spec 1 Np); [ | lia ]. cbn [andb mid Nat.sub]. lra.
    + rewrite !andb_false_r. destruct (Nat.ltb_spec (S (S j)) Np); [ | lia ]. cbn [mid]. replace (S (S j) - 1) with (S j) by lia. lra.
  - rewrite H by lia. unfold bnd. destruct (Nat.eqb_spec Np 0); [ lia | ]. destruct (Nat.eqb_spec Np 1); [ lia | ]. rewrite !andb_false_r, Nat.ltb_irrefl.
    destruct Np as [|[|[|np]]]; try lia. cbn [Nat.sub mid]. rewrite ?Nat.sub_0_r. cbn [mid]. lra.
Qed.
Lemma raw_midpoints Np cm i (flag : bool) (D : Prop) w e : 3 <= Np -> (flag = true <-> D) ->
  raw_e Np cm i flag w e -> channel_midpoints Np cm D w (fun j => nth (i * nbound cm Np + j) e 0%R).
Proof.
  intros HNp HD RE. unfold channel_midpoints. cbv zeta. split; [ | split ].
  - intros Dt. assert (flag = true) as -> by (apply HD; exact Dt). apply (bnd_midpoints Np true); [ exact HNp | intros j Hj; apply (RE j Hj) ].
  - intros Dt. assert (flag = false) as -> by (destruct flag; [ exfalso; apply Dt, HD; reflexivity | reflexivity ]).
    apply (bnd_midpoints Np false); [ exact HNp | intros j Hj; apply (RE j Hj) ].
  - intros ->. apply (bnd_midpoints Np false); [ exact HNp | ]. intros j Hj. destruct (RE j Hj) as [_ B]. specialize (B eq_refl). rewrite Nat.add_assoc. exact B.
Qed.

Lemma right_ok flag (D : Prop) w : (flag = true <-> D) -> (right_bound_states w flag <-> bound_states_ok D w).
Proof.
  intros HD. unfold right_bound_states, bound_states_ok. destruct flag.
  - split; [ intros R; split; [ auto | intros N; exfalso; apply N, HD; reflexivity ] | intros [A _]; apply A, HD; reflexivity ].
  - split; [ intros R; split; [ intros Dt; apply HD in Dt; discriminate | auto ] | intros [_ B]; apply B; intros Dt; apply HD in Dt; discriminate ].
Qed.

Lemma pick_fun {A} (p : A * A) : (pick false p, pick true p) = p. Proof. destruct p; reflexivity. Qed.

Lemma whole_swp diag g Jm mx iso ss Np p V C0 e0 Eb0 :
  (1 <= mx)%Z -> construct_symmetric_pw_states_g g Jm mx iso = Ok ss -> 3 <= Np -> length p = Np + 1 ->
  (forall cm, length (pick cm V) = dim2 cm Np * dim2 cm Np * num_channels iso Jm cm) ->
  (forall cm, length (pick cm C0) = dim2 cm Np * dim2 cm Np * num_channels iso Jm cm) ->
  (forall cm, length (pick cm e0) = nbound cm Np * num_channels iso Jm cm) ->
  solves diag Np p V (num_channels iso Jm) ->
  let channel := is_channel iso (ss_states ss) in
  let deuteron := is_deuteron_channel iso (ss_states ss) in
  let w cm i := fst (spectrum diag Np p V cm i) in
  let run := make_swp_states diag true iso Jm Np p (ss_states ss) V C0 e0 Eb0 in
  ((exists cm i, channel cm i /\ ~ bound_states_ok (deuteron cm i) (w cm i)) /\ run = Err) \/
  ((forall cm i, channel cm i -> i < num_channels iso Jm cm /\ bound_states_ok (deuteron cm i) (w cm i)) /\
   exists st, run = Ok st /\
    (forall cm i, channel cm i ->
       let N := dim2 cm Np in
       eigenbasis N (symmetric_of (hamiltonian Np p V cm i)) (fun x k => nth (i * N * N + (x * N + k)) (pick cm (sw_C st)) 0%R)
         (fun k => nth (eigenvalue_no cm Np k) (w cm i) 0%R) /\
       channel_bins Np cm (deuteron cm i) (w cm i) (fun j => nth (i * nbound cm Np + j) (pick cm (sw_e st)) 0%R) /\
       (deuteron cm i -> (sw_Eb st < 0)%R /\ In (sw_Eb st) (w cm i))) /\
    ((forall cm i, ~ deuteron cm i) -> sw_Eb st = Eb0) /\
    (forall cm i, i < num_channels iso Jm cm -> ~ channel cm i ->
       let N := dim2 cm Np in
       (forall k, k < N * N -> nth (i * N * N + k) (pick cm (sw_C st)) 0%R = nth (i * N * N + k) (pick cm C0) 0%R) /\
       (forall k, k < nbound cm Np -> nth (i * nbound cm Np + k) (pick cm (sw_e st)) 0%R = 0%R)) /\
    (forall cm i, channel cm i ->
       channel_midpoints Np cm (deuteron cm i) (w cm i) (fun j => nth (i * nbound cm Np + j) (pick cm (sw_e st)) 0%R)) /\
    (forall cm, length (pick cm (sw_C st)) = length (pick cm C0) /\ length (pick cm (sw_e st)) = length (pick cm e0))).
Proof.
  intros Hmx Hss HNp Lp LV LC Le Hdiag channel deuteron w run.
  destruct (driver_spec g Jm mx iso ss Hmx Hss) as (evs & Edr & ND & HK & HF).
  assert (Hst : forall s, In s (ss_states ss) -> physical s /\ (J_2N s <= Jm)%Z).
  { intros s Hs. destruct (sound g Jm mx iso ss Hss s Hs) as [P [Q _ _]]. auto. }
  set (n := num_channels iso Jm) in *.
  assert (Hrange : forall cm i flag, In (cm, i, flag) evs -> (0 <= i < Z.of_nat (n cm))%Z).
  { intros cm i flag Hin. assert (Hk : In (cm, i) (map ev_key evs)) by (apply in_map_iff; exists (cm, i, flag); auto).
    apply HK in Hk. destruct Hk as (s & Hs & Hm). destruct (Hst s Hs) as [P Q].
    destruct (unique_range_tensor iso Jm s P Q) as (i0 & E1 & E2). rewrite matrix_of_id in Hm. rewrite Hm in E1, E2. cbn [fst snd] in E1, E2.
    assert (i0 = i) as -> by congruence. unfold n, num_channels. destruct cm; lia. }
  assert (Hflag : forall cm i flag, In (cm, Z.of_nat i, flag) evs -> (flag = true <-> deuteron cm i)) by (intros cm i flag Hin; apply (HF _ _ _ Hin)).
  assert (Huniq : forall a b, In a evs -> In b evs -> snd a = true -> snd b = true -> a = b).
  { intros [[ca ia] fa] [[cb ib] fb] Ha Hb Ea Eb. cbn in Ea, Eb. subst fa fb.
    destruct (proj1 (HF _ _ _ Ha) eq_refl) as (s & Hs & Hm & Hd). destruct (proj1 (HF _ _ _ Hb) eq_refl) as (s' & Hs' & Hm' & Hd').
    destruct (Hst s Hs) as [P Q]. destruct (Hst s' Hs') as [P' Q'].
    assert (X : matrix_of true iso s = matrix_of true iso s').
    { apply (numbering_tensor iso Jm s s' P P' Q). destruct Hd as (D1 & D2 & D3 & D4), Hd' as (D1' & D2' & D3' & D4'). unfold same_2N_channel. repeat split; try lia. }
    congruence. }
  assert (Hin : forall cm i, channel cm i -> exists flag, In (cm, Z.of_nat i, flag) evs).
  { intros cm i Hc. apply HK in Hc. apply in_map_iff in Hc. destruct Hc as ([[c z] f] & E1 & E2). cbn in E1. exists f. injection E1 as <- <-. exact E2. }
  assert (Hin' : forall cm i flag, In (cm, Z.of_nat i, flag) evs -> channel cm i).
  { intros cm i flag Hi. apply HK. apply in_map_iff. exists (cm, Z.of_nat i, flag). auto. }
  unfold run, make_swp_states.
  assert (Nu : Z.to_nat (num_2N_unco_states true iso Jm) = n false) by reflexivity. assert (Nc : Z.to_nat (num_2N_coup_states true iso Jm) = n true) by reflexivity.
  rewrite Nu, Nc.
  assert (Leu := Le false). assert (Lec := Le true). cbn [pick nbound] in Leu, Lec.
  destruct (zero_fill_ok (fst e0) ((Np + 1) * n false) ltac:(rewrite Leu; reflexivity)) as (eu & Eeu & Leu' & Zeu). rewrite Eeu. cbn [obind].
  destruct (zero_fill_ok (snd e0) (2 * (Np + 1) * n true) ltac:(rewrite Lec; reflexivity)) as (ec & Eec & Lec' & Zec). rewrite Eec. cbn [obind].
  destruct (free_pair Np p Lp ltac:(lia)) as (H0u & H1 & H0c & E1 & E2 & E3 & LH0 & VH0). rewrite E1. cbn [obind]. rewrite E2. cbn [obind]. rewrite E3. cbn [obind].
  set (st0 := mkswp _ C0 (eu, ec) Eb0).
  destruct (interleave diag true iso (num_2N_unco_states true iso Jm) (num_2N_coup_states true iso Jm) Np (H0u, H0c) V _ [] st0 evs Edr) as (new & En & EI).
  cbn [app] in En. subst new. rewrite EI.
  assert (I0 : inv diag Np p V C0 Eb0 n [] st0).
  { constructor.
    - intros cm. assert (A := LC cm). split; [ | split ].
      + unfold st0. cbn [sw_H]. unfold tri. destruct cm; cbn [pick fst snd dim2]; rewrite repeat_length; reflexivity.
      + exact A.
      + unfold st0. cbn [sw_e]. destruct cm; cbn [pick fst snd nbound]; lia.
    - intros cm i Hi _. split; [ | split ].
      + intros k _. unfold st0. cbn [sw_H]. destruct cm; cbn [pick fst snd]; apply nth_repeat.
      + reflexivity.
      + intros k Hk. unfold st0. cbn [sw_e]. destruct cm; cbn [pick fst snd nbound] in *; [ apply Zec | apply Zeu ]; nia.
    - intros cm i flag [].
    - reflexivity.
    - intros cm i []. }
  destruct (all_channels diag Np p V (H0u, H0c) C0 Eb0 n Hdiag HNp LH0 VH0 LV LC evs st0 ND Hrange Huniq I0) as [[([[cm z] flag] & Hev & Hbad) EF]|[Hgood (st & EF & I)]].
  - left. rewrite EF. split; [ | reflexivity ]. specialize (Hrange _ _ _ Hev). set (i := Z.to_nat z). assert (Ez : z = Z.of_nat i) by (unfold i; lia).
    exists cm, i. rewrite Ez in Hev. split; [ apply (Hin' _ _ _ Hev) | ]. unfold bad in Hbad. fold i in Hbad. intros X. apply Hbad.
    apply (right_ok flag (deuteron cm i)); [ apply Hflag, Hev | exact X ].
  - right. rewrite EF. cbn [obind snd]. destruct I as [IL IF ID IE0 IE]. split.
    + intros cm i Hc. destruct (Hin cm i Hc) as [flag Hi]. split; [ specialize (Hrange _ _ _ Hi); lia | ].
      apply (right_ok flag); [ apply Hflag, Hi | apply (ID _ _ _ Hi) ].
    + exists st. split; [ reflexivity | ]. split; [ | split; [ | split; [ | split ] ] ].
      * intros cm i Hc. destruct (Hin cm i Hc) as [flag Hi]. assert (Hlt : i < n cm) by (specialize (Hrange _ _ _ Hi); lia).
        destruct (ID _ _ _ Hi) as (RB & RC & RE). assert (ED := Hdiag cm i Hlt). assert (Lw : length (w cm i) = dim2 cm Np) by (destruct ED as [X _]; exact X).
        cbv zeta. split; [ | split ].
        -- eapply raw_eigenbasis; [ exact ED | exact RC ].
        -- apply (raw_bins Np cm i flag); [ exact HNp | exact Lw | apply Hflag, Hi | exact RB | exact RE ].
        -- intros Hd. apply (Hflag cm i flag Hi) in Hd. subst flag. destruct (IE cm i Hi) as (k & Hk & Ek & Hn). split; [ exact Hn | ]. rewrite Ek. apply nth_In. exact Hk.
      * intros Hnd. apply IE0. intros [[cm z] flag] Hev. cbn [snd]. destruct flag; [ exfalso | reflexivity ].
        specialize (Hrange _ _ _ Hev). apply (Hnd cm (Z.to_nat z)). apply (HF _ _ _ ltac:(replace z with (Z.of_nat (Z.to_nat z)) in Hev by lia; exact Hev)). reflexivity.
      * intros cm i Hi Hnc. assert (Hn : ~ In (cm, Z.of_nat i) (map ev_key evs)) by (intros X; apply Hnc, HK, X).
        destruct (IF cm i Hi Hn) as (_ & F2 & F3). split; intros k Hk; [ apply F2 | apply F3 ]; nia.
      * intros cm i Hc. destruct (Hin cm i Hc) as [flag Hi]. destruct (ID _ _ _ Hi) as (_ & _ & RE).
        apply (raw_midpoints Np cm i flag); [ exact HNp | apply Hflag, Hi | exact RE ].
      * intros cm. destruct (IL cm) as (_ & A & B). rewrite A, B, LC, Le. auto.
Qed.
