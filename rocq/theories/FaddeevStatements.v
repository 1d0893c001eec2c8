(* The lemmas of the solver area in the vocabulary of FaddeevSpec and PadeSpec. *)
From Coq Require Import Reals Lra.
From Verif Require Import Common ArrayLib PWModel PWSpec SwpModel ResolventModel GridSpec PotentialSpec KernelModel KernelSpec
  FaddeevModel FaddeevSpec FaddeevProofs FaddeevStepProofs FaddeevLink FaddeevPadeProofs FaddeevSolveProofs FaddeevRuleProofs FaddeevAcceptProofs
  DetModel DenseModel PadeSpec PadeLists PadeLink FaddeevDirect FaddeevExample FaddeevPropsLemmas.
From Verif Require DetLaplace.
Open Scope nat_scope.

Lemma code_val getrf a M z : getrf_contract getrf -> pade_val (determinant getrf) a M z = approximant a M z.
Proof. intros H. exact (DetLaplace.pade_laplace a M z H). Qed.
Lemma code_approximant getrf a M z : getrf_contract getrf -> pade_approximant (determinant getrf) (fun k => Ok (a k)) M M z = Ok (approximant a M z).
Proof. intros H. rewrite (pade_reads _ _ a) by reflexivity. rewrite code_val by exact H. reflexivity. Qed.

Section St.
Variables (s : fsys) (tensor iso : bool) (Jm mx c : Z) (states : list pw) (V C : list R * list R).
Hypothesis Hsys : channel_system s tensor iso Jm mx c states V C.
Let A := kernel_matrix s tensor iso states V C.
Lemma elastic_in e : elastic s e <-> In e (el_elts s).
Proof.
  symmetry. exact (in_el s A (HG s tensor iso Jm mx c states V C Hsys) (link_col s tensor iso Jm mx c states V C Hsys) (link_ends s tensor iso Jm mx c states V C Hsys)
    (Hq s tensor iso Jm mx c states V C Hsys) (Hd s tensor iso Jm mx c states V C Hsys) (HNp s tensor iso Jm mx c states V C Hsys) e).
Qed.
Lemma breakup_in e : breakup s e <-> In e (bu_elts s).
Proof.
  symmetry. etransitivity; [ exact (in_bu s A (HG s tensor iso Jm mx c states V C Hsys) (link_col s tensor iso Jm mx c states V C Hsys) (link_ends s tensor iso Jm mx c states V C Hsys)
    (Hq s tensor iso Jm mx c states V C Hsys) (Hd s tensor iso Jm mx c states V C Hsys) (HNp s tensor iso Jm mx c states V C Hsys) (link_cells s tensor iso Jm mx c states V C Hsys) e) | ].
  unfold breakup, bu_range. split; intros (Hb & dr & q & b & H1 & H2 & H3 & H4); (split; [ exact Hb | ]); exists dr, q, b; (split; [ exact H1 | ]); (split; [ exact H2 | ]); (split; [ | exact H4 ]).
  - apply in_seq in H3. lia.
  - apply in_seq. lia.
Qed.

(* C41 *)
Lemma st_history nc (h : nat -> list bool * list bool) n : 0 < nc -> n < num_terms ->
  (forall m, length (fst (h m)) = s_nd s * s_nd s * s_nq s /\ length (snd (h m)) = (if s_breakup s then s_nd s * s_nBU s else 0)) ->
  (forall m i, nth i (fst (h m)) false = true -> nth i (fst (h (S m))) false = true) ->
  (forall m i, nth i (snd (h m)) false = true -> nth i (snd (h (S m))) false = true) ->
  exists st0 st, neumann_init s = Ok st0 /\
    ofold (fun st k => neumann_step s nc (s_D s / nc + 1) (fst (h k)) (snd (h k)) st k) (seq 1 n) st0 = Ok st /\
    (forall e m, elastic s e -> nth (e_idx e) (fst (h n)) false = false -> m <= n -> nth (e_idx e * num_terms + m) (n_a st) c0 = term s A m e) /\
    (forall e m, breakup s e -> nth (e_idx e) (snd (h n)) false = false -> m <= n -> nth (e_idx e * num_terms + m) (n_abu st) c0 = term s A m e).
Proof.
  intros H1 H2 H3 H4 H5. destruct (history s tensor iso Jm mx c states V C Hsys nc h n H1 H2 H3 H4 H5) as (st0 & st & E0 & E & X & Y).
  exists st0, st. split; [ exact E0 | ]. split; [ exact E | ]. split; intros e m He; [ apply X, elastic_in | apply Y, breakup_in ]; exact He.
Qed.

(* C60 *)
Lemma st_direct solve U : solve_contract solve -> length U = s_nd s * s_nd s * s_nq s ->
  exists U', dense_solver solve s U = Ok U' /\ length U' = length U /\
    forall dr dc q, dr < s_nd s -> dc < s_nd s -> q < s_nq s ->
      let G := fun k => nth (q * s_D s + k) (s_G s) c0 in
      faddeev_regular (s_D s) A G -> exists X, faddeev_solution (s_D s) A G X /\
        (forall Y, faddeev_solution (s_D s) A G Y -> forall x y, x < s_D s -> y < s_D s -> Y x y = X x y) /\
        nth (dr * s_nd s * s_nq s + dc * s_nq s + q) U' c0 =
          X (idx3 (s_Nq s) (s_Np s) (nth dr (s_d s) 0, nth q (s_q s) 0, 0)) (idx3 (s_Nq s) (s_Np s) (nth dc (s_d s) 0, nth q (s_q s) 0, 0)).
Proof.
  intros H1 H2. destruct (direct_full s tensor iso Jm mx c states V C Hsys solve U H1 H2) as (U' & E & L & H).
  exists U'. split; [ exact E | ]. split; [ exact L | ]. intros dr dc q Hr Hc Hqn G Hreg.
  set (e := mkelt (dr * s_nd s * s_nq s + dc * s_nq s + q) (dr * s_nq s + q) (idx3 (s_Nq s) (s_Np s) (nth dc (s_d s) 0, nth q (s_q s) 0, 0))).
  assert (He : elastic s e) by (exists dr, dc, q; auto). 
  destruct (row_dq s tensor iso Jm mx c states V C Hsys dr q Hqn) as [Rq Rd].
  assert (EG : forall k, row_G s (e_row e) k = G k) by (intros k; unfold row_G, G; cbn [e_row e]; rewrite Rq; reflexivity).
  assert (Hsol : forall Y, faddeev_solution (s_D s) A G Y <-> faddeev_solution (s_D s) A (row_G s (e_row e)) Y).
  { intros Y. split; intros HY r k Hrr Hk; rewrite (HY r k Hrr Hk); f_equal; apply ctotal_ext; intros i Hi; rewrite EG; reflexivity. }
  assert (Hreg2 : faddeev_regular (s_D s) A (row_G s (e_row e))).
  { intros y Hy. apply Hreg. intros i Hi. rewrite (Hy i Hi). apply ctotal_ext. intros k Hk. rewrite EG. reflexivity. }
  destruct (H e (proj1 (elastic_in e) He) Hreg2) as (X & X1 & X2 & X3).
  exists X. split; [ apply Hsol; exact X1 | ]. split; [ intros Y HY; apply X2, Hsol, HY | ].
  cbn [e_idx e_row e_col e] in X3. unfold row_state in X3. rewrite Rq, Rd in X3. exact X3.
Qed.

Section G.
Variable getrf : getrf_t.
Hypothesis Hgetrf : getrf_contract getrf.
Notation det := (determinant getrf).
(* C43 *)
Lemma st_agree solve U : solve_contract solve -> length U = s_nd s * s_nd s * s_nq s ->
  exists U', dense_solver solve s U = Ok U' /\ length U' = length U /\
    forall e M, elastic s e -> faddeev_regular (s_D s) A (row_G s (e_row e)) -> s_D s <= M -> laplace (M + 1) (denominator (fun k => term s A k e) M c1) <> c0 ->
      pade_approximant det (fun k => Ok (term s A k e)) M M c1 = Ok (nth (e_idx e) U' c0).
Proof.
  intros H1 H2. destruct (both_agree getrf Hgetrf s tensor iso Jm mx c states V C Hsys solve U H1 H2) as (U' & E & L & H).
  exists U'. split; [ exact E | ]. split; [ exact L | ]. intros e M He. apply H, elastic_in. exact He.
Qed.
Lemma st_breakup e M X : breakup s e -> s_D s <= M -> laplace (M + 1) (denominator (fun k => term s A k e) M c1) <> c0 ->
  faddeev_solution (s_D s) A (row_G s (e_row e)) X ->
  pade_approximant det (fun k => Ok (term s A k e)) M M c1 = Ok (X (row_state s (e_row e)) (e_col e)).
Proof. intros He. apply (breakup_agree getrf Hgetrf s tensor iso Jm mx c states V C Hsys), breakup_in. exact He. Qed.
Lemma st_beyond e M : elastic s e \/ breakup s e -> s_D s < M -> pade_approximant det (fun k => Ok (term s A k e)) M M c1 = Ok (cdiv c0 c0).
Proof.
  intros He. apply (zero_over_zero getrf Hgetrf s tensor iso Jm mx c states V C Hsys), in_or_app.
  destruct He as [He|He]; [ left; apply elastic_in | right; apply breakup_in ]; exact He.
Qed.
(* C44 *)
Hypothesis HD : (1 <= zn (s_D s) <= 2 ^ 28)%Z.
Lemma st_elastic f fb U UBU : s_breakup s = false -> length U = s_nd s * s_nd s * s_nq s ->
  exists U', pade_method_solve det (Some f, Some fb) s U UBU = Ok (U', UBU) /\ length U' = length U /\
    forall e, elastic s e -> exists b, b <= 14 /\ nth (e_idx e) U' c0 = approximant (fun k => term s A k e) b c1.
Proof.
  intros Hb LU. destruct (elastic_ok s tensor iso Jm mx c states V C Hsys HD det f fb U UBU Hb LU) as (U' & E & L & H).
  exists U'. split; [ exact E | ]. split; [ rewrite LU; exact L | ]. intros e He. destruct (H e (proj1 (elastic_in e) He)) as (b & Hb14 & Hp).
  exists b. split; [ exact Hb14 | ]. fold A in Hp. rewrite (code_approximant getrf (fun k => term s A k e) b c1 Hgetrf) in Hp. congruence.
Qed.
(* C45 *)
Lemma st_breakup_run f fb U UBU U' UBU' : pade_method_solve det (Some f, Some fb) s U UBU = Ok (U', UBU') ->
  (forall e, elastic s e -> exists b NM, nth (e_idx e) U' c0 = approximant (fun k => term s A k e) b c1 /\ accepted (fun k => term s A k e) b NM) /\
  (forall e, breakup s e -> exists b NM, nth (e_idx e) UBU' c0 = approximant (fun k => term s A k e) b c1 /\ accepted (fun k => term s A k e) b NM).
Proof.
  intros E. destruct (accepted_reported s tensor iso Jm mx c states V C Hsys HD det f fb U UBU U' UBU' E) as [H1 H2]. fold A in H1, H2.
  assert (Hp : forall e k, PA det (coef_of s A) e k = approximant (fun k => term s A k e) k c1) by (intros e k; apply code_val; exact Hgetrf).
  assert (Hd : forall e k, diff det (coef_of s A) e k = change (fun k => term s A k e) k) by (intros e k; unfold diff, change; rewrite !Hp; reflexivity).
  assert (Ha : forall e b NM, accepted_at det (coef_of s A) e b NM -> accepted (fun k => term s A k e) b NM).
  { intros e b NM (A1 & A2 & A3). split; [ exact A1 | ]. split; [ exact A2 | ]. intros Hb. destruct (A3 Hb) as (B1 & B2 & B3). rewrite Hd in *. rewrite Hp in *.
    split; [ exact B1 | ]. split; [ intros k Hk; rewrite <- Hd; apply B2; exact Hk | ]. unfold NM_max in B3.
    destruct B3 as [B3|[B3|[B3|B3]]]; [ left; exact B3 | right; left; lia | right; right; left; exact B3 | right; right; right; exact B3 ]. }
  split; intros e He; [ destruct (H1 e (proj1 (elastic_in e) He)) as (b & NM & X1 & X2) | destruct (H2 e (proj1 (breakup_in e) He)) as (b & NM & X1 & X2) ];
    (exists b, NM; split; [ rewrite X1; apply Hp | apply Ha; exact X2 ]).
Qed.
End G.
End St.

(* C40 *)
Open Scope Z_scope.
Lemma st_chunks D : 1 <= D <= 2 ^ 28 -> exists nc nch, chunking D = Ok (nc, nch) /\ 1 <= nc /\ nc * D * 16 <= 4 * 1024 ^ 3 /\
  (forall k, 0 <= k < nch -> exists st en, chunk_range D nc k = (st, en, en - st) /\ 0 <= st /\ st <= en <= D /\ en - st <= nc) /\
  (forall j, 0 <= j < D -> exists! k, 0 <= k < nch /\ let '(st, en, _) := chunk_range D nc k in st <= j < en).
Proof.
  intros HD. destruct (chunking_ok D HD) as [E Hn]. exists (2 ^ 28 / D), (D / (2 ^ 28 / D) + 1). split; [ exact E | ]. split; [ lia | ]. split.
  { pose proof (Z.mul_div_le (2 ^ 28) D ltac:(lia)). lia. }
  split.
  - intros k Hk. destruct (chunk_range_ok D _ _ k HD E Hk) as [R1 R2].
    do 2 eexists. split; [ exact R1 | ]. split; [ | lia ]. assert (0 <= 2 ^ 28 / D) by lia. nia.
  - intros j Hj. destruct (chunk_cover D _ _ j HD E Hj) as [B1 B2]. exists (j / (2 ^ 28 / D)). split.
    + split; [ exact B1 | ]. destruct (chunk_range_ok D _ _ _ HD E B1) as [R1 _]. rewrite R1. apply B2; [ exact B1 | reflexivity ].
    + intros k [Hk Hr]. destruct (chunk_range_ok D _ _ _ HD E Hk) as [R1 _]. rewrite R1 in Hr. symmetry. apply B2; [ exact Hk | exact Hr ].
Qed.
Open Scope nat_scope.

(* C45: what happens in a run with breakup channels *)
Section Run.
Variables (s : fsys) (tensor iso : bool) (Jm mx c : Z) (states : list pw) (V C : list R * list R).
Hypothesis Hsys : channel_system s tensor iso Jm mx c states V C.
Hypothesis HD : (1 <= zn (s_D s) <= 2 ^ 28)%Z.
Let A := kernel_matrix s tensor iso states V C.
Variable getrf : getrf_t.
Hypothesis Hgetrf : getrf_contract getrf.
Notation det := (determinant getrf).
Lemma st_run f fb U UBU : s_breakup s = true -> length U = s_nd s * s_nd s * s_nq s -> s_nd s * s_nBU s <= length UBU ->
  exists nc nch v, chunking (zn (s_D s)) = Ok (nc, nch) /\ pade_run det (Some f, Some fb) s (Z.to_nat nc) (Z.to_nat nch) = Ok v /\
    (((forall e, elastic s e -> nth (e_idx e) (p_conv (v_el v)) false = true) /\ (forall e, breakup s e -> nth (e_idx e) (p_conv (v_bu v)) false = true)) ->
     exists U' UBU', pade_method_solve det (Some f, Some fb) s U UBU = Ok (U', UBU') /\
       (forall e, elastic s e -> exists b NM, nth (e_idx e) U' c0 = approximant (fun k => term s A k e) b c1 /\ accepted (fun k => term s A k e) b NM) /\
       (forall e, breakup s e -> exists b NM, nth (e_idx e) UBU' c0 = approximant (fun k => term s A k e) b c1 /\ accepted (fun k => term s A k e) b NM)) /\
    (((exists e, elastic s e /\ nth (e_idx e) (p_conv (v_el v)) false = false) \/ (exists e, breakup s e /\ nth (e_idx e) (p_conv (v_bu v)) false = false)) ->
     v_count v = s_nd s * s_nd s * s_nq s /\ pade_method_solve det (Some f, Some fb) s U UBU = UB).
Proof.
  intros Hb LU LB. destruct (breakup_ok s tensor iso Jm mx c states V C Hsys HD det f fb U UBU) as (v & E & G1 & G2).
  { exact LU. } { unfold nBU. rewrite Hb. exact LB. }
  destruct (chunking_ok (zn (s_D s)) HD) as [Ec Hn].
  assert (Ench : Z.to_nat (zn (s_D s) / (2 ^ 28 / zn (s_D s)) + 1) = s_D s / ncn s + 1).
  { unfold ncn, zn in *. rewrite Z2Nat.inj_add by (try apply Z.div_pos; lia). rewrite Z2Nat.inj_div by lia. rewrite Nat2Z.id. reflexivity. }
  do 2 eexists. exists v. split; [ exact Ec | ]. rewrite Ench. split; [ exact E | ].
  pose proof (elastic_in s tensor iso Jm mx c states V C Hsys) as EI. pose proof (breakup_in s tensor iso Jm mx c states V C Hsys) as BI. split.
  - intros [K1 K2]. destruct G1 as (U' & UBU' & ES & _).
    { intros e He. apply K1, EI, He. } { intros e He. apply K2, BI, He. }
    exists U', UBU'. split; [ exact ES | ]. exact (st_breakup_run s tensor iso Jm mx c states V C Hsys getrf Hgetrf HD f fb U UBU U' UBU' ES).
  - intros [(e & He & Hc)|(e & He & Hc)]; apply G2; [ left | right ]; exists e; (split; [ | exact Hc ]); [ apply EI, He | apply BI, He ].
Qed.
End Run.
