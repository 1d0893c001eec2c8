From Coq Require Import Reals Lra.
From Verif Require Import Common ArrayLib PWModel SwpModel ResolventModel GridSpec KernelModel KernelSpec KernelColProofs
  FaddeevModel FaddeevSpec FaddeevProofs FaddeevStepProofs FaddeevLink FaddeevPadeProofs FaddeevSolveProofs DetModel DenseModel.
Open Scope nat_scope.

Definition delta (i j : nat) : cdouble := if i =? j then c1 else c0.
Section Build.
Variables (s : fsys) (A : nat -> nat -> R).
Hypothesis HG : length (s_G s) = s_nq s * s_D s.
Let D := s_D s.
Definition Lval (j r c : nat) : cdouble := cadd (copp (cmul (rc (A r c)) (nth (j * D + c) (s_G s) c0))) (delta r c).

Lemma column_ok j col cpvc L R0 : j < s_nq s -> col < D -> length cpvc = D -> (forall i, i < D -> nth i cpvc 0%R = A i col) ->
  length L = D * D -> length R0 = D * D ->
  exists L' R', dense_column s j col cpvc (L, R0) = Ok (L', R') /\ length L' = D * D /\ length R' = D * D /\
    (forall r, r < D -> nth (r * D + col) L' c0 = Lval j r col /\ nth (r * D + col) R' c0 = rc (A r col)) /\
    (forall r c, c < D -> c <> col -> nth (r * D + c) L' c0 = nth (r * D + c) L c0 /\ nth (r * D + c) R' c0 = nth (r * D + c) R0 c0).
Proof.
  intros Hj Hc Lc Hv LL LR. unfold dense_column. fold D. set (g := nth (j * D + col) (s_G s) c0).
  assert (Hg : j * D + col < length (s_G s)) by (rewrite HG; apply rm_lt; assumption).
  destruct (ofold_inv (fun dn (st : list cdouble * list cdouble) => length (fst st) = D * D /\ length (snd st) = D * D /\
      (forall r, In r dn -> nth (r * D + col) (fst st) c0 = copp (cmul (rc (A r col)) g) /\ nth (r * D + col) (snd st) c0 = rc (A r col)) /\
      (forall r c, c < D -> c <> col -> nth (r * D + c) (fst st) c0 = nth (r * D + c) L c0 /\ nth (r * D + c) (snd st) c0 = nth (r * D + c) R0 c0))
    (fun (LR : list cdouble * list cdouble) row =>
      do x <- aread cpvc row; do g <- aread (s_G s) (j * D + col);
      do L <- awrite (fst LR) (row * D + col) (- x * fst g, - x * snd g)%R;
      do x <- aread cpvc row; do R <- awrite (snd LR) (row * D + col) (x, 0%R); Ok (L, R)) (seq 0 D) (L, R0)) as ([L1 R1] & E1 & K1 & K2 & K3 & K4).
  - cbn [fst snd]. repeat split; auto; contradiction.
  - intros dn row rest [L1 R1] Hl (K1 & K2 & K3 & K4). cbn [fst snd] in *.
    assert (Hr : row < D) by (assert (In row (seq 0 D)) by (rewrite Hl; apply in_or_app; right; left; reflexivity); apply in_seq in H; lia).
    assert (Hb : row * D + col < D * D) by (apply rm_lt; assumption).
    rewrite (aread_nth cpvc row 0%R) by lia. cbn [obind]. rewrite (aread_nth (s_G s) _ c0 Hg). cbn [obind]. fold g.
    rewrite Hv by exact Hr.
    destruct (nth_awrite L1 (row * D + col) (- A row col * fst g, - A row col * snd g)%R c0 ltac:(lia)) as (L2 & E2 & M2 & W2 & O2).
    destruct (nth_awrite R1 (row * D + col) (A row col, 0%R) c0 ltac:(lia)) as (R2 & E3 & M3 & W3 & O3).
    rewrite E2. cbn [obind]. rewrite E3. cbn [obind]. exists (L2, R2). split; [ reflexivity | ]. cbn [fst snd].
    split; [ congruence | ]. split; [ congruence | ]. split.
    + intros r Hin. destruct (Nat.eq_dec r row) as [->|Hne].
      * rewrite W2, W3. split; [ | reflexivity ]. unfold copp, cmul, rc. cbn [fst snd]. f_equal; ring.
      * apply in_app_or in Hin. destruct Hin as [Hin|[->|[]]]; [ | contradiction ].
        rewrite O2, O3 by (intros Heq; apply rm_inj in Heq; [ tauto | assumption.. ]). apply K3. exact Hin.
    + intros r c' Hc' Hne. rewrite O2, O3 by (intros Heq; apply rm_inj in Heq; [ tauto | assumption.. ]). apply K4; assumption.
  - rewrite E1. cbn [obind fst snd] in *. assert (Hb : col * D + col < D * D) by (apply rm_lt; assumption).
    rewrite (aread_nth L1 _ c0) by lia. cbn [obind].
    destruct (nth_awrite L1 (col * D + col) (cadd (nth (col * D + col) L1 c0) c1) c0 ltac:(lia)) as (L2 & E2 & M2 & W2 & O2).
    rewrite E2. cbn [obind]. exists L2, R1. split; [ reflexivity | ]. split; [ congruence | ]. split; [ exact K2 | ]. split.
    + intros r Hr. destruct (K3 r ltac:(apply in_seq; lia)) as [X1 X2]. split; [ | exact X2 ]. unfold Lval, delta. fold D. fold g.
      destruct (Nat.eqb_spec r col) as [->|Hne].
      * rewrite W2, X1. reflexivity.
      * rewrite O2 by (intros Heq; apply rm_inj in Heq; [ tauto | assumption.. ]). rewrite X1. unfold cadd, c0. cbn [fst snd].
        destruct (copp (cmul (rc (A r col)) g)) as [u v]. cbn [fst snd]. f_equal; ring.
    + intros r c' Hc' Hne. rewrite O2 by (intros Heq; apply rm_inj in Heq; [ tauto | assumption.. ]). apply K4; assumption.
Qed.

Hypothesis Hcol : forall ac qc pc, valid3 (s_N s) (s_Nq s) (s_Np s) (ac, qc, pc) ->
  exists col, CPVC_col (s_N s) (s_Nq s) (s_Np s) (s_CT s) (s_VC s) (s_P s) ac pc qc (repeat 0%R D) = Ok col /\ length col = D /\
    forall i, i < D -> nth i col 0%R = A i (idx3 (s_Nq s) (s_Np s) (ac, qc, pc)).
Hypothesis HNp : 0 < s_Np s.
Hypothesis HNq : 0 < s_Nq s.

Lemma build_ok j : j < s_nq s -> exists L R0, dense_build s j = Ok (L, R0) /\ length L = D * D /\ length R0 = D * D /\
  forall r c, r < D -> c < D -> nth (r * D + c) L c0 = Lval j r c /\ nth (r * D + c) R0 c0 = rc (A r c).
Proof.
  intros Hj. unfold dense_build. fold D.
  set (Step := fun LR (x : state3) => let '(ac, qc, pc) := x in
      do cpvc <- CPVC_col (s_N s) (s_Nq s) (s_Np s) (s_CT s) (s_VC s) (s_P s) ac pc qc (repeat 0%R D);
      dense_column s j (ac * s_Np s * s_Nq s + qc * s_Np s + pc) cpvc LR).
  set (l := flat_map (fun qc => flat_map (fun ac => map (fun pc => (ac, qc, pc)) (seq 0 (s_Np s))) (seq 0 (s_N s))) (seq 0 (s_Nq s))).
  assert (E : forall LR, ofold (fun LR qc => ofold (fun LR ac => ofold (fun LR pc =>
      do cpvc <- CPVC_col (s_N s) (s_Nq s) (s_Np s) (s_CT s) (s_VC s) (s_P s) ac pc qc (repeat 0%R D);
      dense_column s j (ac * s_Np s * s_Nq s + qc * s_Np s + pc) cpvc LR)
    (seq 0 (s_Np s)) LR) (seq 0 (s_N s)) LR) (seq 0 (s_Nq s)) LR = ofold Step l LR).
  { intros LR. unfold l. apply ofold_flat. intros qc LR' _. apply ofold_flat. intros ac LR'' _. rewrite ofold_map. reflexivity. }
  rewrite E. clear E.
  assert (Hin : forall a q p, In (a, q, p) l <-> valid3 (s_N s) (s_Nq s) (s_Np s) (a, q, p)).
  { intros a q p. unfold l. rewrite in_flat_map. split.
    - intros (q' & Hq' & Hx). apply in_flat_map in Hx. destruct Hx as (a' & Ha' & Hx). apply in_map_iff in Hx. destruct Hx as (p' & Heq & Hp').
      injection Heq as -> -> ->. apply in_seq in Hq', Ha', Hp'. cbn. lia.
    - intros (Ha & Hq & Hp). exists q. split; [ apply in_seq; lia | ]. apply in_flat_map. exists a. split; [ apply in_seq; lia | ].
      apply in_map_iff. exists p. split; [ reflexivity | apply in_seq; lia ]. }
  destruct (ofold_inv (fun dn (st : list cdouble * list cdouble) => length (fst st) = D * D /\ length (snd st) = D * D /\
      forall x, In x dn -> forall r, r < D -> nth (r * D + idx3 (s_Nq s) (s_Np s) x) (fst st) c0 = Lval j r (idx3 (s_Nq s) (s_Np s) x) /\
         nth (r * D + idx3 (s_Nq s) (s_Np s) x) (snd st) c0 = rc (A r (idx3 (s_Nq s) (s_Np s) x)))
    Step l (repeat c0 (D * D), repeat c0 (D * D))) as ([L R0] & E1 & K1 & K2 & K3).
  - cbn [fst snd]. rewrite !repeat_length. repeat split; auto; contradiction.
  - intros dn [[a q] p] rest [L R0] Hl (K1 & K2 & K3). cbn [fst snd] in *.
    assert (Hx : valid3 (s_N s) (s_Nq s) (s_Np s) (a, q, p)) by (apply Hin; rewrite Hl; apply in_or_app; right; left; reflexivity).
    unfold Step. destruct (Hcol _ _ _ Hx) as (cp & Ec & Lc & Hv). rewrite Ec. cbn [obind].
    replace (a * s_Np s * s_Nq s + q * s_Np s + p) with (idx3 (s_Nq s) (s_Np s) (a, q, p)) by (cbn; ring).
    pose proof (idx3_lt _ _ _ _ Hx) as Hi. fold (s_D s) in Hi. fold D in Hi.
    destruct (column_ok j _ cp L R0 Hj Hi Lc Hv K1 K2) as (L' & R' & E2 & M1 & M2 & M3 & M4). exists (L', R').
    split; [ exact E2 | ]. cbn [fst snd]. split; [ exact M1 | ]. split; [ exact M2 | ].
    intros y Hy r Hr. destruct (Nat.eq_dec (idx3 (s_Nq s) (s_Np s) y) (idx3 (s_Nq s) (s_Np s) (a, q, p))) as [Heq|Hne].
    + rewrite Heq. apply M3. exact Hr.
    + apply in_app_or in Hy. destruct Hy as [Hy|[Hy|[]]]; [ | subst y; contradiction ].
      assert (Hyv : valid3 (s_N s) (s_Nq s) (s_Np s) y) by (destruct y as [[a' q'] p']; apply Hin; rewrite Hl; apply in_or_app; left; exact Hy).
      pose proof (idx3_lt _ _ _ _ Hyv) as Hyi. fold (s_D s) in Hyi. fold D in Hyi.
      destruct (M4 r _ Hyi Hne) as [X1 X2]. rewrite X1, X2. apply K3; assumption.
  - exists L, R0. split; [ exact E1 | ]. cbn [fst snd] in *. split; [ exact K1 | ]. split; [ exact K2 | ]. intros r c Hr Hc.
    destruct (state_of_valid (s_N s) (s_Nq s) (s_Np s) c HNp HNq Hc) as [Hv Hi]. rewrite <- Hi.
    apply K3; [ | exact Hr ]. destruct (state_of (s_Nq s) (s_Np s) c) as [[a q] p]. apply Hin. exact Hv.
Qed.
End Build.

(* ---------- the whole solver ---------- *)
Section Dense.
Variables (s : fsys) (tensor iso : bool) (Jm mx c : Z) (states : list pw) (V C : list R * list R).
Hypothesis Hsys : channel_system s tensor iso Jm mx c states V C.
Let A := kernel_matrix s tensor iso states V C.
Let D := s_D s.
Variable solve : solve_t.
Hypothesis Hsolve : solve_contract solve.
Let HG := HG s tensor iso Jm mx c states V C Hsys.
Let HNp := HNp s tensor iso Jm mx c states V C Hsys.
Lemma HNq : 0 < s_Nq s.
Proof. pose proof (cs_in _ _ _ _ _ _ _ _ _ Hsys) as (_ & H & _). exact H. Qed.

Lemma dense_col ac qc pc : valid3 (s_N s) (s_Nq s) (s_Np s) (ac, qc, pc) ->
  exists col, CPVC_col (s_N s) (s_Nq s) (s_Np s) (s_CT s) (s_VC s) (s_P s) ac pc qc (repeat 0%R D) = Ok col /\ length col = D /\
    forall i, i < D -> nth i col 0%R = A i (idx3 (s_Nq s) (s_Np s) (ac, qc, pc)).
Proof.
  intros Hv. destruct (link_products s tensor iso Jm mx c states V C Hsys (repeat 0%R (s_nd s * s_nq s * s_D s)) (repeat_length _ _)) as [R1 _].
  destruct (R1 _ _ _ Hv) as (col & E & L & H). exists col. split; [ exact E | ]. split; [ exact L | ]. intros i Hi.
  destruct (state_of_valid (s_N s) (s_Nq s) (s_Np s) i HNp HNq Hi) as [Hv' Hi2].
  rewrite <- Hi2 at 1. rewrite (H _ Hv'). unfold A, kernel_matrix. rewrite (state_of_idx (s_N s) _ _ _ Hv). reflexivity.
Qed.

(* X solves the equation at energy j *)
Definition energy_G (j k : nat) : cdouble := nth (j * D + k) (s_G s) c0.
Definition solves (j : nat) (X : nat -> nat -> cdouble) : Prop := forall r k, r < D -> k < D ->
  ctotal (fun i => cmul (Lval s A j r i) (X i k)) D = rc (A r k).
Definition regular_at (j : nat) : Prop := regular D (Lval s A j).

Lemma ctotal_ext f g n : (forall k, k < n -> f k = g k) -> ctotal f n = ctotal g n.
Proof. induction n as [|n IH]; intros H; [ reflexivity | ]. cbn. rewrite IH, H by (intros; try apply H; lia). reflexivity. Qed.

Lemma dense_ok U : length U = s_nd s * s_nd s * s_nq s ->
  exists U', dense_solver solve s U = Ok U' /\ length U' = length U /\
    forall j, j < s_nq s -> regular_at j -> exists X, solves j X /\
      forall dr dc, dr < s_nd s -> dc < s_nd s -> nth (dr * s_nd s * s_nq s + dc * s_nq s + j) U' c0 =
        X (idx3 (s_Nq s) (s_Np s) (nth dr (s_d s) 0, nth j (s_q s) 0, 0)) (idx3 (s_Nq s) (s_Np s) (nth dc (s_d s) 0, nth j (s_q s) 0, 0)).
Proof.
  intros LU. unfold dense_solver. fold D.
  pose proof (cs_in _ _ _ _ _ _ _ _ _ Hsys) as (_ & _ & _ & _ & Hq & Hd & _).
  destruct (ofold_inv (fun dn U' => length U' = length U /\ forall j, In j dn -> regular_at j -> exists X, solves j X /\
      forall dr dc, dr < s_nd s -> dc < s_nd s -> nth (dr * s_nd s * s_nq s + dc * s_nq s + j) U' c0 =
        X (idx3 (s_Nq s) (s_Np s) (nth dr (s_d s) 0, nth j (s_q s) 0, 0)) (idx3 (s_Nq s) (s_Np s) (nth dc (s_d s) 0, nth j (s_q s) 0, 0)))
    (fun U j =>
      do '(L, R) <- dense_build s j;
      let X := solve L R D in
      ofold (fun U dr => ofold (fun U dc =>
          do ar <- aread (s_d s) dr; do ac <- aread (s_d s) dc; do q <- aread (s_q s) j;
          do x <- aread X ((ar * s_Nq s * s_Np s + q * s_Np s + 0) * D + (ac * s_Nq s * s_Np s + q * s_Np s + 0));
          awrite U (dr * s_nd s * s_nq s + dc * s_nq s + j) x)
        (seq 0 (s_nd s)) U) (seq 0 (s_nd s)) U) (seq 0 (s_nq s)) U) as (U' & E & L' & H).
  - split; [ reflexivity | contradiction ].
  - intros dn j rest U1 Hl (L1 & K1).
    assert (Hj : j < s_nq s) by (assert (In j (seq 0 (s_nq s))) by (rewrite Hl; apply in_or_app; right; left; reflexivity); apply in_seq in H; lia).
    assert (Hdn : forall i, In i dn -> i < s_nq s /\ i <> j).
    { intros i Hi. assert (Hi2 : In i (seq 0 (s_nq s))) by (rewrite Hl; apply in_or_app; left; exact Hi). split; [ apply in_seq in Hi2; lia | ].
      intros ->. pose proof (seq_NoDup (s_nq s) 0) as Hnd. rewrite Hl in Hnd. apply NoDup_remove_2 in Hnd. apply Hnd, in_or_app. left; exact Hi. }
    destruct (build_ok s A HG dense_col HNp HNq j Hj) as (L & R0 & E1 & M1 & M2 & M3). fold D in M1, M2, M3. rewrite E1. cbn [obind]. cbv zeta.
    destruct (Hsolve L R0 D M1 M2) as [LX HX]. set (X := solve L R0 D) in *.
    assert (HS : regular_at j -> solves j (fun i k => nth (i * D + k) X c0)).
    { intros Hreg r k Hr Hk. destruct (M3 r k Hr Hk) as [_ X2]. rewrite <- X2. rewrite <- HX; [ | | exact Hr | exact Hk ].
      - apply ctotal_ext. intros i Hi. destruct (M3 r i Hr Hi) as [X1 _]. rewrite X1. reflexivity.
      - intros y Hy. apply Hreg. intros i Hi. rewrite <- (Hy i Hi). apply ctotal_ext. intros m Hm. destruct (M3 i m Hi Hm) as [X1 _]. rewrite X1. reflexivity. }
    set (F := fun U (rc : nat * nat) => awrite U (fst rc * s_nd s * s_nq s + snd rc * s_nq s + j)
        (nth (idx3 (s_Nq s) (s_Np s) (nth (fst rc) (s_d s) 0, nth j (s_q s) 0, 0) * D + idx3 (s_Nq s) (s_Np s) (nth (snd rc) (s_d s) 0, nth j (s_q s) 0, 0)) X c0)).
    assert (Hval : forall dr, dr < s_nd s -> valid3 (s_N s) (s_Nq s) (s_Np s) (nth dr (s_d s) 0, nth j (s_q s) 0, 0)).
    { intros dr Hdr. cbn. split; [ apply Hd, nth_In; exact Hdr | ]. split; [ apply Hq, nth_In; exact Hj | exact HNp ]. }
    assert (EF : ofold (fun U dr => ofold (fun U dc =>
          do ar <- aread (s_d s) dr; do ac <- aread (s_d s) dc; do q <- aread (s_q s) j;
          do x <- aread X ((ar * s_Nq s * s_Np s + q * s_Np s + 0) * D + (ac * s_Nq s * s_Np s + q * s_Np s + 0));
          awrite U (dr * s_nd s * s_nq s + dc * s_nq s + j) x) (seq 0 (s_nd s)) U) (seq 0 (s_nd s)) U1 = ofold F (nest (s_nd s) (s_nd s)) U1).
    { unfold nest. apply ofold_flat. intros dr U2 Hdr. apply in_seq in Hdr. rewrite ofold_map.
      apply ofold_ext. intros dc U3 Hdc. apply in_seq in Hdc.
      rewrite (aread_nth (s_d s) dr 0) by (unfold s_nd in *; lia). cbn [obind]. rewrite (aread_nth (s_d s) dc 0) by (unfold s_nd in *; lia). cbn [obind].
      rewrite (aread_nth (s_q s) j 0) by (unfold s_nq in *; lia). cbn [obind].
      pose proof (idx3_lt _ _ _ _ (Hval dr ltac:(lia))) as B1. pose proof (idx3_lt _ _ _ _ (Hval dc ltac:(lia))) as B2. fold (s_D s) in B1, B2. fold D in B1, B2.
      replace (nth dr (s_d s) 0 * s_Nq s * s_Np s + nth j (s_q s) 0 * s_Np s + 0) with (idx3 (s_Nq s) (s_Np s) (nth dr (s_d s) 0, nth j (s_q s) 0, 0)) by (cbn [idx3]; ring).
      replace (nth dc (s_d s) 0 * s_Nq s * s_Np s + nth j (s_q s) 0 * s_Np s + 0) with (idx3 (s_Nq s) (s_Np s) (nth dc (s_d s) 0, nth j (s_q s) 0, 0)) by (cbn [idx3]; ring).
      rewrite (aread_nth X _ c0) by (rewrite LX; apply rm_lt; assumption). reflexivity. }
    rewrite EF. clear EF.
    destruct (ofold_inv (fun dn2 U2 => length U2 = length U1 /\ (forall rc, In rc dn2 -> nth (fst rc * s_nd s * s_nq s + snd rc * s_nq s + j) U2 c0 =
         nth (idx3 (s_Nq s) (s_Np s) (nth (fst rc) (s_d s) 0, nth j (s_q s) 0, 0) * D + idx3 (s_Nq s) (s_Np s) (nth (snd rc) (s_d s) 0, nth j (s_q s) 0, 0)) X c0) /\
         (forall i m, i < s_nq s -> i <> j -> nth (m * s_nq s + i) U2 c0 = nth (m * s_nq s + i) U1 c0)) F (nest (s_nd s) (s_nd s)) U1) as (U2 & E2 & L2 & H2 & H3).
    + repeat split; auto; contradiction.
    + intros dn2 [dr dc] rest2 U2 Hl2 (Q1 & Q2 & Q3).
      assert (Hin : In (dr, dc) (nest (s_nd s) (s_nd s))) by (rewrite Hl2; apply in_or_app; right; left; reflexivity). apply in_nest in Hin. destruct Hin as [Hdr Hdc].
      assert (Hb : dr * s_nd s * s_nq s + dc * s_nq s + j < length U2).
      { rewrite Q1, L1, LU. replace (dr * s_nd s * s_nq s + dc * s_nq s + j) with ((dr * s_nd s + dc) * s_nq s + j) by ring. apply rm_lt; [ apply rm_lt; assumption | exact Hj ]. }
      unfold F at 1. cbn [fst snd].
      match goal with |- context [awrite U2 ?k ?v] => destruct (nth_awrite U2 k v c0 Hb) as (U3 & E3 & M4 & W3 & O3) end.
      exists U3. split; [ exact E3 | ]. split; [ congruence | ]. split.
      * intros [dr' dc'] Hin. cbn [fst snd]. apply in_app_or in Hin.
        destruct (Nat.eq_dec (dr' * s_nd s * s_nq s + dc' * s_nq s + j) (dr * s_nd s * s_nq s + dc * s_nq s + j)) as [Heq|Hne].
        -- assert (Hdc' : dr' < s_nd s /\ dc' < s_nd s). { destruct Hin as [Hin|[Heq2|[]]]; [ | injection Heq2 as <- <-; split; assumption ]. apply in_nest. rewrite Hl2. apply in_or_app. left; exact Hin. }
           assert (H4 : (dr' * s_nd s + dc') * s_nq s + j = (dr * s_nd s + dc) * s_nq s + j) by (rewrite !Nat.mul_add_distr_r; exact Heq).
           apply rm_inj in H4; [ | assumption.. ]. destruct H4 as [H4 _]. apply rm_inj in H4; [ | tauto.. ]. destruct H4 as [-> ->]. exact W3.
        -- rewrite O3 by exact Hne. destruct Hin as [Hin|[Heq2|[]]]; [ exact (Q2 _ Hin) | injection Heq2 as <- <-; contradiction ].
      * intros i m Hi Hne. rewrite O3; [ apply Q3; assumption | ]. intros Heq.
        assert (H4 : m * s_nq s + i = (dr * s_nd s + dc) * s_nq s + j) by (rewrite Heq; ring). apply rm_inj in H4; [ tauto | assumption.. ].
    + exists U2. split; [ exact E2 | ]. split; [ congruence | ]. intros i Hi Hr. apply in_app_or in Hi. destruct Hi as [Hi|[<-|[]]].
      * destruct (Hdn i Hi) as [Hi1 Hi2]. destruct (K1 i Hi Hr) as (X' & S' & HX'). exists X'. split; [ exact S' | ]. intros dr dc Hdr Hdc.
        replace (dr * s_nd s * s_nq s + dc * s_nq s + i) with ((dr * s_nd s + dc) * s_nq s + i) by ring. rewrite H3 by assumption.
        rewrite <- (HX' dr dc Hdr Hdc). f_equal. ring.
      * exists (fun i k => nth (i * D + k) X c0). split; [ exact (HS Hr) | ]. intros dr dc Hdr Hdc. apply (H2 (dr, dc)). apply in_nest. split; assumption.
  - exists U'. split; [ exact E | ]. split; [ exact L' | ]. intros j Hj. apply H. apply in_seq. lia.
Qed.
End Dense.
