(* C101: the iterative solver's answer depends on the terms of the series and on the memory before its array only. *)
From Coq Require Import Reals Lra Lia ZifyBool FunctionalExtensionality.
From Verif Require Import Common ArrayLib PWModel SwpModel ResolventModel GridSpec PotentialSpec KernelModel KernelSpec FaddeevModel FaddeevSpec FaddeevProofs FaddeevStepProofs FaddeevLink
  FaddeevPadeProofs FaddeevSolveProofs FaddeevRuleProofs FaddeevAcceptProofs FaddeevStatements DetModel PadeSpec.
Open Scope nat_scope.

(* ---------- one order ---------- *)
Section Order.
Variables (det1 det2 : list cdouble -> nat -> cdouble) (f : nat -> cdouble) (co1 co2 : elt -> nat -> cdouble) (NM : nat) (a1 a2 : list cdouble) (l : list elt).
Definition knows (co : elt -> nat -> cdouble) (a : list cdouble) (p : pst) : Prop := forall e, In e l -> nth (e_idx e) (p_conv p) false = false ->
  forall k, k <= 2 * NM -> e_idx e * num_terms + k < length a /\ nth (e_idx e * num_terms + k) a c0 = co e k.
Hypothesis HPA : forall e, In e l -> PA det1 co1 e NM = PA det2 co2 e NM.

Lemma element_same p cnt e : In e l -> knows co1 a1 p -> knows co2 a2 p ->
  pade_element det1 (Some f) NM a1 (p, cnt) (e_idx e) = pade_element det2 (Some f) NM a2 (p, cnt) (e_idx e).
Proof.
  intros He H1 H2. unfold pade_element. cbn [fst snd]. destruct (aread (p_conv p) (e_idx e)) as [c| | |] eqn:Ec; [ | reflexivity.. ]. cbn [obind].
  destruct c; [ reflexivity | ].
  assert (Hf : nth (e_idx e) (p_conv p) false = false) by (apply aread_some in Ec || (unfold aread in Ec; destruct (nth_error (p_conv p) (e_idx e)) eqn:En; [ | discriminate ]; injection Ec as ->; apply nth_error_nth; exact En)).
  rewrite (pade_reads det1 _ (co1 e)) by (intros k Hk; destruct (H1 e He Hf k Hk) as [B E]; rewrite (aread_nth _ _ c0 B), E; reflexivity).
  rewrite (pade_reads det2 _ (co2 e)) by (intros k Hk; destruct (H2 e He Hf k Hk) as [B E]; rewrite (aread_nth _ _ c0 B), E; reflexivity).
  change (pade_val det1 (co1 e) NM c1) with (PA det1 co1 e NM). change (pade_val det2 (co2 e) NM c1) with (PA det2 co2 e NM). rewrite (HPA e He). reflexivity.
Qed.
Lemma element_mono det a st i st' : pade_element det (Some f) NM a st i = Ok st' ->
  forall j, nth j (p_conv (fst st')) false = false -> nth j (p_conv (fst st)) false = false.
Proof.
  unfold pade_element. destruct (aread (p_conv (fst st)) i) as [c| | |]; try discriminate. cbn [obind]. destruct c; [ intros [= <-]; auto | ].
  destruct (pade_approximant _ _ _ _ _) as [x| | |]; try discriminate. cbn [obind].
  destruct (awrite (p_pa (fst st)) _ _) as [pa| | |]; try discriminate. cbn [obind].
  destruct (ofold _ _ _) as [bm| | |]; try discriminate. cbn [obind].
  destruct (aread pa _) as [b| | |]; try discriminate. cbn [obind].
  destruct (_ || _); [ | intros [= <-]; auto ].
  destruct (awrite (p_conv (fst st)) i true) as [cv| | |] eqn:Ew; try discriminate. cbn [obind].
  destruct (awrite (p_best (fst st)) i _) as [bs| | |]; try discriminate. cbn [obind]. intros [= <-] j. cbn [fst p_conv].
  destruct (awrite_inv _ _ _ _ Ew) as (Hi & L & Hn & Ho). destruct (Nat.eq_dec j i) as [->|Hne].
  - rewrite (nth_error_nth _ _ false Hn). discriminate.
  - intros Hj. destruct (Nat.lt_ge_cases j (length (p_conv (fst st)))) as [Hl|Hl]; [ | apply nth_overflow; exact Hl ].
    assert (E := Ho j Hne). rewrite (nth_error_nth' cv false) in E by lia. rewrite (nth_error_nth' (p_conv (fst st)) false Hl) in E. congruence.
Qed.
Lemma order_same p cnt : knows co1 a1 p -> knows co2 a2 p ->
  pade_order det1 (Some f) NM a1 l (p, cnt) = pade_order det2 (Some f) NM a2 l (p, cnt).
Proof.
  intros H1 H2. unfold pade_order.
  assert (G : forall m (st : pst * nat), incl m l -> (forall j, nth j (p_conv (fst st)) false = false -> nth j (p_conv p) false = false) ->
    ofold (fun st e => pade_element det1 (Some f) NM a1 st (e_idx e)) m st = ofold (fun st e => pade_element det2 (Some f) NM a2 st (e_idx e)) m st).
  { induction m as [|e m IH]; intros [q cq] Hin Hm; [ reflexivity | ]. cbn [ofold fst] in *.
    assert (K1 : knows co1 a1 q) by (intros e' He' Hf; apply H1; [ exact He' | apply Hm; exact Hf ]).
    assert (K2 : knows co2 a2 q) by (intros e' He' Hf; apply H2; [ exact He' | apply Hm; exact Hf ]).
    rewrite (element_same q cq e (Hin e (or_introl eq_refl)) K1 K2).
    destruct (pade_element det2 (Some f) NM a2 (q, cq) (e_idx e)) as [st'| | |] eqn:E; [ | reflexivity.. ]. cbn [obind].
    apply IH; [ intros x Hx; apply Hin; right; exact Hx | ]. intros j Hj. apply Hm. exact (element_mono _ _ _ _ _ E j Hj). }
  apply G; [ apply incl_refl | auto ].
Qed.
End Order.

(* ---------- the report ---------- *)
Lemma report_same p l U1 U2 R1 R2 : length U1 = length U2 -> report p l U1 = Ok R1 -> report p l U2 = Ok R2 ->
  (forall i, i < length U1 -> exists e, In e l /\ e_idx e = i) -> R1 = R2.
Proof.
  intros HL E1 E2 Hcov. unfold report in *. 
  assert (G : forall m A B R1 R2 (dn : nat -> Prop), length A = length B -> (forall i, dn i -> nth i A c0 = nth i B c0) ->
    ofold (fun U e => do b <- pread (p_best p) (e_idx e); do x <- aread (p_pa p) (e_idx e * (NM_max + 1) + b); awrite U (e_idx e) x) m A = Ok R1 ->
    ofold (fun U e => do b <- pread (p_best p) (e_idx e); do x <- aread (p_pa p) (e_idx e * (NM_max + 1) + b); awrite U (e_idx e) x) m B = Ok R2 ->
    length R1 = length A /\ length R2 = length A /\ forall i, dn i \/ (exists e, In e m /\ e_idx e = i) -> nth i R1 c0 = nth i R2 c0).
  { clear. induction m as [|e m IH]; intros A B R1 R2 dn HL Hdn E1 E2; cbn [ofold] in *.
    - injection E1 as <-. injection E2 as <-. split; [ reflexivity | ]. split; [ congruence | ]. intros i [H|(e & [] & _)]. auto.
    - destruct (pread (p_best p) (e_idx e)) as [b| | |]; try discriminate. cbn [obind] in *.
      destruct (aread (p_pa p) (e_idx e * (NM_max + 1) + b)) as [x| | |]; try discriminate. cbn [obind] in *.
      destruct (awrite A (e_idx e) x) as [A'| | |] eqn:WA; try discriminate. cbn [obind] in *.
      destruct (awrite B (e_idx e) x) as [B'| | |] eqn:WB; try discriminate. cbn [obind] in *.
      destruct (awrite_inv _ _ _ _ WA) as (IA & LA & NA & OA). destruct (awrite_inv _ _ _ _ WB) as (IB & LB & NB & OB).
      destruct (IH A' B' R1 R2 (fun i => dn i \/ i = e_idx e)) as (L1 & L2 & H); [ congruence | | assumption | assumption | ].
      + intros i Hi. destruct (Nat.eq_dec i (e_idx e)) as [->|Hne].
        * rewrite (nth_error_nth _ _ c0 NA), (nth_error_nth _ _ c0 NB). reflexivity.
        * destruct Hi as [Hi|Hi]; [ | contradiction ]. specialize (Hdn i Hi).
          destruct (Nat.lt_ge_cases i (length A)) as [Hl|Hl].
          -- assert (XA := OA i Hne). assert (XB := OB i Hne). rewrite (nth_error_nth' A' c0), (nth_error_nth' A c0) in XA by lia. rewrite (nth_error_nth' B' c0), (nth_error_nth' B c0) in XB by lia. congruence.
          -- rewrite !nth_overflow by lia. reflexivity.
      + split; [ congruence | ]. split; [ congruence | ]. intros i [Hi|(e' & [<-|Hin] & <-)]; apply H; [ left; left; exact Hi | left; right; reflexivity | right; eauto ]. }
  destruct (G l U1 U2 R1 R2 (fun _ => False) HL (fun i H => match H with end) E1 E2) as (L1 & L2 & H).
  apply (nth_ext _ _ c0 c0); [ congruence | ]. intros i Hi. apply H. right. apply Hcov. congruence.
Qed.

Lemma cover_index nd nq i : i < nd * nd * nq -> exists dr dc q, dr < nd /\ dc < nd /\ q < nq /\ dr * nd * nq + dc * nq + q = i.
Proof.
  intros Hi. assert (Hq : 0 < nq) by (destruct nq; lia). assert (Hd : 0 < nd) by (destruct nd; lia).
  exists (i / nq / nd), ((i / nq) mod nd), (i mod nq).
  assert (X := Nat.div_mod i nq ltac:(lia)). assert (Y := Nat.div_mod (i / nq) nd ltac:(lia)).
  split; [ apply Nat.div_lt_upper_bound; [ lia | ]; apply Nat.div_lt_upper_bound; [ lia | nia ] | ].
  split; [ apply Nat.mod_upper_bound; lia | ]. split; [ apply Nat.mod_upper_bound; lia | ].
  set (u := i / nq) in *. set (v := u / nd) in *. set (w := u mod nd) in *. nia.
Qed.

(* ---------- two systems ---------- *)
Section Two.
Variables (s1 s2 : fsys) (tensor iso : bool) (Jm mx c : Z) (states : list pw) (V1 C1 V2 C2 : list R * list R).
Hypothesis Hs1 : channel_system s1 tensor iso Jm mx c states V1 C1.
Hypothesis Hs2 : channel_system s2 tensor iso Jm mx c states V2 C2.
Hypothesis HD1 : (1 <= zn (s_D s1) <= 2 ^ 28)%Z.
Hypothesis HD2 : (1 <= zn (s_D s2) <= 2 ^ 28)%Z.
Hypothesis Hb1 : s_breakup s1 = false.
Hypothesis Hb2 : s_breakup s2 = false.
Hypothesis eNq : s_Nq s1 = s_Nq s2.
Hypothesis eNp : s_Np s1 = s_Np s2.
Hypothesis Hsq : s_q s1 = s_q s2.
Hypothesis Hsd : s_d s1 = s_d s2.
Variables (getrf1 getrf2 : getrf_t) (f fb1 fb2 : nat -> cdouble).
Hypothesis Hg1 : getrf_contract getrf1.
Hypothesis Hg2 : getrf_contract getrf2.
Let A1 := kernel_matrix s1 tensor iso states V1 C1.
Let A2 := kernel_matrix s2 tensor iso states V2 C2.
Hypothesis Hterm : forall e n, elastic s1 e -> term s1 A1 n e = term s2 A2 n e.
Notation det1 := (determinant getrf1).
Notation det2 := (determinant getrf2).
Notation n1 := (s_nd s1 * s_nd s1 * s_nq s1).

Lemma el_same : el_elts s2 = el_elts s1.
Proof. unfold el_elts, s_nd, s_nq. rewrite eNq, eNp, Hsq, Hsd. reflexivity. Qed.
Lemma n_same : s_nd s2 * s_nd s2 * s_nq s2 = n1.
Proof. unfold s_nd, s_nq. rewrite Hsq, Hsd. reflexivity. Qed.
Lemma pa_same e k : In e (el_elts s1) -> PA det1 (coef_of s1 A1) e k = PA det2 (coef_of s2 A2) e k.
Proof.
  intros He. unfold PA. rewrite !code_val by assumption. apply (elastic_in s1 tensor iso Jm mx c states V1 C1 Hs1) in He.
  f_equal. apply functional_extensionality. intros n. apply Hterm. exact He.
Qed.

Let G1 := HG s1 tensor iso Jm mx c states V1 C1 Hs1.
Let Q1 := Hq s1 tensor iso Jm mx c states V1 C1 Hs1.
Let D1 := Hd s1 tensor iso Jm mx c states V1 C1 Hs1.
Let P1 := HNp s1 tensor iso Jm mx c states V1 C1 Hs1.
Let Col1 := link_col s1 tensor iso Jm mx c states V1 C1 Hs1.
Let Row1 := link_rows s1 tensor iso Jm mx c states V1 C1 Hs1.
Let End1 := link_ends s1 tensor iso Jm mx c states V1 C1 Hs1.
Let Cell1 := link_cells s1 tensor iso Jm mx c states V1 C1 Hs1.
Let G2 := HG s2 tensor iso Jm mx c states V2 C2 Hs2.
Let Q2 := Hq s2 tensor iso Jm mx c states V2 C2 Hs2.
Let D2 := Hd s2 tensor iso Jm mx c states V2 C2 Hs2.
Let P2 := HNp s2 tensor iso Jm mx c states V2 C2 Hs2.
Let Col2 := link_col s2 tensor iso Jm mx c states V2 C2 Hs2.
Let Row2 := link_rows s2 tensor iso Jm mx c states V2 C2 Hs2.
Let End2 := link_ends s2 tensor iso Jm mx c states V2 C2 Hs2.
Let Cell2 := link_cells s2 tensor iso Jm mx c states V2 C2 Hs2.
Notation nB1 := (if s_breakup s1 then s_nd s1 * s_nBU s1 else 0).
Notation nB2 := (if s_breakup s2 then s_nd s2 * s_nBU s2 else 0).

Lemma nm_same k w1 w2 : k < W -> good_state s1 A1 det1 k w1 -> good_state s2 A2 det2 k w2 -> v_el w1 = v_el w2 -> v_count w1 = v_count w2 -> v_count w1 <> n1 ->
  exists x1 x2, nm_step det1 (Some f, Some fb1) s1 (ncn s1) (s_D s1 / ncn s1 + 1) w1 k = Ok x1 /\ nm_step det2 (Some f, Some fb2) s2 (ncn s2) (s_D s2 / ncn s2 + 1) w2 k = Ok x2 /\
    good_state s1 A1 det1 (S k) x1 /\ good_state s2 A2 det2 (S k) x2 /\ v_el x1 = v_el x2 /\ v_count x1 = v_count x2.
Proof.
  intros Hk Gs1 Gs2 Eel Ecnt Hne.
  assert (Pos1 := ncn_pos s1 tensor iso Jm mx c states V1 C1 Hs1 HD1). assert (Pos2 := ncn_pos s2 tensor iso Jm mx c states V2 C2 Hs2 HD2).
  destruct (nm_ok s1 A1 G1 Col1 End1 Q1 D1 P1 Cell1 det1 f fb1 (ncn s1) k w1 Pos1 Hk Gs1 Hne) as (x1 & E1 & X1).
  assert (Hne2 : v_count w2 <> s_nd s2 * s_nd s2 * s_nq s2) by (rewrite n_same, <- Ecnt; exact Hne).
  destruct (nm_ok s2 A2 G2 Col2 End2 Q2 D2 P2 Cell2 det2 f fb2 (ncn s2) k w2 Pos2 Hk Gs2 Hne2) as (x2 & E2 & X2).
  exists x1, x2. split; [ exact E1 | ]. split; [ exact E2 | ]. split; [ exact X1 | ]. split; [ exact X2 | ].
  unfold nm_step in E1, E2. replace (v_count w1 =? n1) with false in E1 by (symmetry; apply Nat.eqb_neq; exact Hne).
  replace (v_count w2 =? s_nd s2 * s_nd s2 * s_nq s2) with false in E2 by (symmetry; apply Nat.eqb_neq; exact Hne2).
  destruct (ns_ok s1 A1 G1 Col1 End1 Q1 D1 P1 Cell1 det1 f fb1 (ncn s1) k _ _ (v_n w1) Pos1 Hk (conj (proj2 (proj2 (g_lel _ _ _ _ _ Gs1))) (proj2 (proj2 (g_lbu _ _ _ _ _ Gs1)))) (g_inv _ _ _ _ _ Gs1)) as (m1 & N1 & I1).
  destruct (ns_ok s2 A2 G2 Col2 End2 Q2 D2 P2 Cell2 det2 f fb2 (ncn s2) k _ _ (v_n w2) Pos2 Hk (conj (proj2 (proj2 (g_lel _ _ _ _ _ Gs2))) (proj2 (proj2 (g_lbu _ _ _ _ _ Gs2)))) (g_inv _ _ _ _ _ Gs2)) as (m2 & N2 & I2).
  rewrite N1 in E1. rewrite N2 in E2. cbn [obind fst snd] in E1, E2.
  destruct (gel s1 tensor iso Jm mx c states V1 C1 Hs1) as [L1 _]. destruct (gel s2 tensor iso Jm mx c states V2 C2 Hs2) as [L2 _].
  assert (Sm : pade_order det1 (Some f) k (n_a m1) (el_elts s1) (v_el w1, v_count w1) = pade_order det2 (Some f) k (n_a m2) (el_elts s2) (v_el w2, v_count w2)).
  { rewrite <- Eel, <- Ecnt, el_same. apply (order_same det1 det2 f (coef_of s1 A1) (coef_of s2 A2)).
    - intros e He. apply pa_same. exact He.
    - intros e He Hf j Hj. assert (k <= 14) by (unfold W, NM_max in Hk; lia).
      split; [ | apply (i_a _ _ _ _ _ _ I1); [ exact He | exact Hf | lia ] ].
      rewrite (i_la _ _ _ _ _ _ I1). apply rm_lt; [ apply L1; exact He | unfold num_terms; lia ].
    - intros e He Hf j Hj. assert (k <= 14) by (unfold W, NM_max in Hk; lia). rewrite <- el_same in He. rewrite Eel in Hf.
      split; [ | apply (i_a _ _ _ _ _ _ I2); [ exact He | exact Hf | lia ] ].
      rewrite (i_la _ _ _ _ _ _ I2). apply rm_lt; [ apply L2; exact He | unfold num_terms; lia ]. }
  rewrite Sm in E1. destruct (pade_order det2 (Some f) k (n_a m2) (el_elts s2) (v_el w2, v_count w2)) as [[el cn]| | |]; try discriminate. cbn [obind] in E1, E2.
  unfold bu_elts in E1, E2. rewrite Hb1 in E1. rewrite Hb2 in E2. cbn [pade_order ofold obind] in E1, E2. injection E1 as <-. injection E2 as <-. auto.
Qed.

Lemma solve_same U1 U2 B1 B2 : length U1 = n1 -> length U2 = n1 ->
  exists R, pade_method_solve det1 (Some f, Some fb1) s1 U1 B1 = Ok (R, B1) /\ pade_method_solve det2 (Some f, Some fb2) s2 U2 B2 = Ok (R, B2).
Proof.
  intros LU1 LU2.
  destruct (st_elastic s1 tensor iso Jm mx c states V1 C1 Hs1 getrf1 Hg1 HD1 f fb1 U1 B1 Hb1 LU1) as (R1 & E1 & LR1 & _).
  destruct (st_elastic s2 tensor iso Jm mx c states V2 C2 Hs2 getrf2 Hg2 HD2 f fb2 U2 B2 Hb2 ltac:(rewrite n_same; exact LU2)) as (R2 & E2 & LR2 & _).
  exists R1. split; [ exact E1 | ]. rewrite E2. f_equal. f_equal.
  rewrite (solve_eq s1 tensor iso Jm mx c states V1 C1 Hs1 HD1 det1) in E1. rewrite (solve_eq s2 tensor iso Jm mx c states V2 C2 Hs2 HD2 det2) in E2.
  unfold pade_run in E1, E2.
  destruct (init_ok s1 A1 G1 Col1 End1 Row1 Q1 D1 P1 Cell1 (repeat false n1) (repeat false nB1)) as (m1 & N1 & I1).
  destruct (init_ok s2 A2 G2 Col2 End2 Row2 Q2 D2 P2 Cell2 (repeat false (s_nd s2 * s_nd s2 * s_nq s2)) (repeat false nB2)) as (m2 & N2 & I2).
  rewrite N1 in E1. rewrite N2 in E2. cbn [obind] in E1, E2.
  set (v1 := mksolver m1 _ _ 0) in E1. set (v2 := mksolver m2 _ _ 0) in E2.
  assert (G : forall k, k <= W -> exists w1 w2 m, 
     ofold (nm_step det1 (Some f, Some fb1) s1 (ncn s1) (s_D s1 / ncn s1 + 1)) (seq 0 k) v1 = Ok w1 /\ ofold (nm_step det2 (Some f, Some fb2) s2 (ncn s2) (s_D s2 / ncn s2 + 1)) (seq 0 k) v2 = Ok w2 /\
     good_state s1 A1 det1 m w1 /\ good_state s2 A2 det2 m w2 /\ v_el w1 = v_el w2 /\ v_count w1 = v_count w2 /\ (m = k \/ v_count w1 = n1)).
  { induction k as [|k IH]; intros Hk.
    - exists v1, v2, 0. split; [ reflexivity | ]. split; [ reflexivity | ]. split; [ apply (fresh_ok s1 A1 G1 Col1 End1 Q1 D1 P1 det1 f fb1); exact I1 | ].
      split; [ apply (fresh_ok s2 A2 G2 Col2 End2 Q2 D2 P2 det2 f fb2); exact I2 | ]. unfold v1, v2. cbn [v_el v_count]. rewrite n_same. auto.
    - destruct (IH ltac:(lia)) as (w1 & w2 & m & X1 & X2 & Y1 & Y2 & Eel & Ecnt & Hor). rewrite !seq_S, !ofold_app, X1, X2. cbn [obind ofold Nat.add].
      destruct (Nat.eq_dec (v_count w1) n1) as [Heq|Hne].
      + exists w1, w2, m. unfold nm_step. rewrite n_same, <- Ecnt, Heq, Nat.eqb_refl. cbn [obind]. do 6 (split; [ assumption || reflexivity | ]). right; reflexivity.
      + destruct Hor as [->|Hx]; [ | contradiction ]. destruct (nm_same k w1 w2 ltac:(lia) Y1 Y2 Eel Ecnt Hne) as (x1 & x2 & Z1 & Z2 & Z3 & Z4 & Z5 & Z6).
        rewrite Z1, Z2. cbn [obind]. exists x1, x2, (S k). auto 10. }
  destruct (G W (le_n _)) as (w1 & w2 & m & X1 & X2 & _ & _ & Eel & _). unfold W in X1, X2. rewrite X1 in E1. rewrite X2 in E2. cbn [obind] in E1, E2.
  rewrite <- Eel, el_same in E2.
  destruct (report (v_el w1) (el_elts s1) U1) as [T1| | |] eqn:F1; try discriminate. destruct (report (v_el w1) (el_elts s1) U2) as [T2| | |] eqn:F2; try discriminate. cbn [obind] in E1, E2.
  unfold bu_elts in E1, E2. rewrite Hb1 in E1. rewrite Hb2 in E2. cbn [report ofold obind] in E1, E2. injection E1 as <-. injection E2 as <-.
  symmetry. refine (report_same _ _ U1 U2 T1 T2 _ F1 F2 _); [ congruence | ]. rewrite LU1. intros i Hi.
  destruct (cover_index _ _ _ Hi) as (dr & dc & q & H1 & H2 & H3 & E).
  exists (mkelt (dr * s_nd s1 * s_nq s1 + dc * s_nq s1 + q) (dr * s_nq s1 + q) (idx3 (s_Nq s1) (s_Np s1) (nth dc (s_d s1) 0, nth q (s_q s1) 0, 0))). split.
  - apply (elastic_in s1 tensor iso Jm mx c states V1 C1 Hs1). exists dr, dc, q. auto.
  - exact E.
Qed.
End Two.
