(* What the convergence rule guarantees for every accepted approximant. *)
From Coq Require Import Reals Lra ZifyBool.
From Verif Require Import Common ArrayLib PWModel SwpModel ResolventModel GridSpec KernelModel KernelSpec FaddeevModel FaddeevSpec
  FaddeevProofs FaddeevStepProofs FaddeevLink FaddeevPadeProofs FaddeevSolveProofs FaddeevRuleProofs.
Open Scope nat_scope.

Section Accept.
Variables (det : list cdouble -> nat -> cdouble) (coef : elt -> nat -> cdouble).
Notation PAe := (PA det coef).
Definition diff (e : elt) (k : nat) : R := cabs (cadd (PAe e k) (copp (PAe e (k - 1)))).
(* approximant b is accepted at order NM *)
Definition accepted_at (e : elt) (b NM : nat) : Prop :=
  b <= NM /\ NM <= NM_max /\
  (1 <= b -> (1 / 10 ^ 15 < diff e b < 1)%R /\
     (forall k, 1 <= k <= NM -> (diff e k <= 1 / 10 ^ 15)%R \/ (diff e b <= diff e k)%R) /\
     (NM = NM_max \/ 4 < NM - b \/ (diff e b < 1 / 10 ^ 6 * cabs (PAe e b))%R \/ (diff e b < 1 / 10 ^ 7)%R)).
Lemma Rltb_iff x y : Rltb x y = true <-> (x < y)%R.
Proof. split; [ | apply Rltb_lt ]. intros H. destruct (Rlt_le_dec x y) as [|Hle]; [ assumption | ]. rewrite (Rltb_ge x y Hle) in H. discriminate. Qed.
Lemma best_spec NM e y : let bm := best_val det coef NM e y in
  fst bm <= NM /\ (snd bm <= 1)%R /\ (1 <= fst bm -> snd bm = diff e (fst bm) /\ (1 / 10 ^ 15 < snd bm < 1)%R) /\
  (forall k, 1 <= k <= NM -> (diff e k <= 1 / 10 ^ 15)%R \/ (snd bm <= diff e k)%R).
Proof.
  cbv zeta. unfold best_val.
  set (F := fun (acc : nat * R) k => let d := cabs (cadd (PAe e k) (copp (match k with O => y | S k' => PAe e k' end))) in
      if Rltb d (snd acc) && Rltb (1 / 10 ^ 15) d then (k, d) else acc).
  assert (G : forall m, m <= NM + 1 -> let bm := fold_left F (seq 0 m) (0, 1%R) in
     fst bm <= NM /\ (snd bm <= 1)%R /\ (1 <= fst bm -> snd bm = diff e (fst bm) /\ (1 / 10 ^ 15 < snd bm < 1)%R) /\
     (forall k, 1 <= k < m -> (diff e k <= 1 / 10 ^ 15)%R \/ (snd bm <= diff e k)%R)).
  { induction m as [|m IH]; intros Hm; cbv zeta.
    - cbn [seq fold_left fst snd]. split; [ lia | ]. split; [ lra | ]. split; intros; lia.
    - rewrite seq_S, fold_left_app. cbn [plus fold_left]. destruct (IH ltac:(lia)) as (H1 & H2 & H3 & H4). set (bm := fold_left F (seq 0 m) (0, 1%R)) in *.
      unfold F. cbv zeta. set (d := cabs (cadd (PAe e m) (copp (match m with O => y | S k' => PAe e k' end)))).
      assert (Hd : 1 <= m -> d = diff e m). { intros H. unfold d, diff. destruct m as [|m']; [ lia | ]. replace (S m' - 1) with m' by lia. reflexivity. }
      destruct (Rltb d (snd bm)) eqn:E1; [ destruct (Rltb (1 / 10 ^ 15) d) eqn:E2 | ]; cbn [andb].
      + apply Rltb_iff in E1, E2. cbn [fst snd]. split; [ lia | ]. split; [ lra | ]. split; [ intros Hm1; split; [ apply Hd; exact Hm1 | lra ] | ].
        intros k Hk. destruct (Nat.eq_dec k m) as [->|Hne]; [ right; rewrite Hd by lia; lra | ]. destruct (H4 k ltac:(lia)) as [|]; [ left; assumption | right; lra ].
      + split; [ exact H1 | ]. split; [ exact H2 | ]. split; [ exact H3 | ]. intros k Hk. destruct (Nat.eq_dec k m) as [->|Hne]; [ | apply H4; lia ].
        left. rewrite <- Hd by lia. apply Rnot_lt_le. intros Hlt. apply Rltb_iff in Hlt. congruence.
      + split; [ exact H1 | ]. split; [ exact H2 | ]. split; [ exact H3 | ]. intros k Hk. destruct (Nat.eq_dec k m) as [->|Hne]; [ | apply H4; lia ].
        right. rewrite <- Hd by lia. apply Rnot_lt_le. intros Hlt. apply Rltb_iff in Hlt. congruence. }
  destruct (G (NM + 1) (le_n _)) as (H1 & H2 & H3 & H4). split; [ exact H1 | ]. split; [ exact H2 | ]. split; [ exact H3 | ]. intros k Hk. apply H4. lia.
Qed.
Lemma accept_spec NM e y : NM <= NM_max -> conv_val det coef NM e (best_val det coef NM e y) = true -> accepted_at e (fst (best_val det coef NM e y)) NM.
Proof.
  intros HNM Hc. destruct (best_spec NM e y) as (H1 & H2 & H3 & H4). set (bm := best_val det coef NM e y) in *. split; [ exact H1 | ]. split; [ exact HNM | ].
  intros Hb. destruct (H3 Hb) as [E1 E2]. rewrite <- E1. split; [ exact E2 | ]. split; [ exact H4 | ]. unfold conv_val in Hc.
  apply orb_prop in Hc. destruct Hc as [Hc|Hc]; [ apply orb_prop in Hc; destruct Hc as [Hc|Hc]; [ apply orb_prop in Hc; destruct Hc as [Hc|Hc] | ] | ].
  - left. apply Nat.eqb_eq. exact Hc.
  - right; left. apply Nat.ltb_lt. exact Hc.
  - right; right; left. apply Rltb_iff. exact Hc.
  - right; right; right. apply Rltb_iff. exact Hc.
Qed.

Definition all_accepted (l : list elt) (p : pst) : Prop := forall e, In e l -> nth (e_idx e) (p_conv p) false = true ->
  exists b NM, nth (e_idx e) (p_best p) None = Some b /\ nth (e_idx e * W + b) (p_pa p) c0 = PAe e b /\ accepted_at e b NM.
Lemma accepted_fresh l n : all_accepted l (fresh_pst n).
Proof. intros e He Hc. cbn [fresh_pst p_conv] in Hc. rewrite nth_repeat in Hc. discriminate. Qed.

Lemma accepted_order g n l NM a p cnt p' cnt' : (forall e, In e l -> e_idx e < n) ->
  (forall e e', In e l -> In e' l -> e_idx e = e_idx e' -> e = e') -> lens n p -> NM < W ->
  (forall e, In e l -> elt_ok det coef NM p e) ->
  (forall e, In e l -> nth (e_idx e) (p_conv p) false = false -> forall k, k <= 2 * NM -> e_idx e * num_terms + k < length a /\ nth (e_idx e * num_terms + k) a c0 = coef e k) ->
  pade_order det (Some g) NM a l (p, cnt) = Ok (p', cnt') -> all_accepted l p -> all_accepted l p'.
Proof.
  intros Hlt Hinj HL HNW Hok Ha E Hacc. unfold pade_order in E.
  destruct (ofold_inv (fun dn (st : pst * nat) => lens n (fst st) /\ all_accepted l (fst st) /\
      (forall e, In e l -> nth (e_idx e) (p_conv (fst st)) false = false -> nth (e_idx e) (p_conv p) false = false) /\
      (forall e, In e l -> nth (e_idx e) (p_conv (fst st)) false = false -> forall k, k < NM -> nth (e_idx e * W + k) (p_pa (fst st)) c0 = PAe e k))
    (fun st e => pade_element det (Some g) NM a st (e_idx e)) l (p, cnt)) as ([q cq] & E' & _ & HA & _).
  - cbn [fst]. split; [ exact HL | ]. split; [ exact Hacc | ]. split; [ auto | ]. intros e He Hf. exact (proj2 (proj1 (Hok e He) Hf)).
  - intros dn e rest [q cq] Hl (L & HA & HM & HC). cbn [fst] in *.
    assert (He : In e l) by (rewrite Hl; apply in_or_app; right; left; reflexivity). pose proof (Hlt e He) as Hi.
    destruct (Bool.bool_dec (nth (e_idx e) (p_conv q) false) true) as [Hc|Hc].
    + exists (q, cq). split; [ | auto ]. unfold pade_element. cbn [fst snd]. destruct L as (_ & _ & L3). rewrite (aread_nth _ _ false) by lia. cbn [obind]. rewrite Hc. reflexivity.
    + apply Bool.not_true_is_false in Hc.
      destruct (pade_element_val det g coef n l Hlt Hinj NM a q cq e He L HNW Hc (HC e He Hc) (Ha e He (HM e He Hc))) as (pa & Lp & Op & Wp & Hcase).
      cbv zeta in Hcase. set (bm := best_val det coef NM e (before g NM q e)) in *. destruct L as (L1 & L2 & L3).
      assert (Hcell : forall e' k, In e' l -> e' <> e -> k < W -> nth (e_idx e' * W + k) pa c0 = nth (e_idx e' * W + k) (p_pa q) c0).
      { intros e' k He' Hne Hk. apply Op. intros Heq. apply rm_inj in Heq; [ | exact Hk | exact HNW ]. apply Hne, Hinj; [ exact He' | exact He | tauto ]. }
      destruct (conv_val det coef NM e bm) eqn:Ecv.
      * destruct Hcase as (cv & bs & Ee & Ew & Eb). exists (mkpst pa bs cv, S cq). split; [ exact Ee | ]. cbn [fst].
        destruct (nth_awrite (p_conv q) (e_idx e) true false ltac:(lia)) as (cv' & Ew' & Lw & Ww & Ow). assert (cv' = cv) by congruence. subst cv'.
        destruct (nth_awrite (p_best q) (e_idx e) (Some (fst bm)) None ltac:(lia)) as (bs' & Eb' & Lb & Wb & Ob). assert (bs' = bs) by congruence. subst bs'.
        assert (Hidx : forall e', In e' l -> e' <> e -> e_idx e' <> e_idx e) by (intros e' He' Hne Heq; apply Hne, Hinj; assumption).
        split; [ unfold lens; cbn [p_pa p_best p_conv]; split; [ congruence | split; congruence ] | ]. cbn [p_conv p_best p_pa]. split; [ | split ].
        -- intros e' He' Hcv'. cbn [p_conv p_best p_pa] in *. destruct (elt_dec e' e) as [->|Hne].
           ++ exists (fst bm), NM. split; [ exact Wb | ]. pose proof (accept_spec NM e (before g NM q e) ltac:(unfold W in HNW; lia) Ecv) as HS. fold bm in HS. split; [ | exact HS ].
              destruct HS as [Hle _]. destruct (Nat.eq_dec (fst bm) NM) as [->|Hn]; [ exact Wp | ]. rewrite Op by lia. apply HC; [ exact He | exact Hc | lia ].
           ++ rewrite Ow in Hcv' by (apply Hidx; assumption). destruct (HA e' He' Hcv') as (b & NM' & B1 & B2 & B3). exists b, NM'.
              rewrite Ob by (apply Hidx; assumption). split; [ exact B1 | ]. split; [ | exact B3 ]. destruct B3 as (B3 & B4 & _). rewrite Hcell; [ exact B2 | assumption.. | unfold W; lia ].
        -- intros e' He' Hf. destruct (elt_dec e' e) as [->|Hne]; [ congruence | ]. apply HM; [ exact He' | ]. rewrite Ow in Hf by (apply Hidx; assumption). exact Hf.
        -- intros e' He' Hf k Hk. destruct (elt_dec e' e) as [->|Hne]; [ congruence | ]. rewrite Ow in Hf by (apply Hidx; assumption). rewrite Hcell by (try assumption; lia). apply HC; assumption.
      * exists (mkpst pa (p_best q) (p_conv q), cq). split; [ exact Hcase | ]. cbn [fst p_conv p_best p_pa].
        split; [ unfold lens; cbn [p_pa p_best p_conv]; split; [ congruence | split; assumption ] | ]. split; [ | split ].
        -- intros e' He' Hcv'. cbn [p_conv p_best p_pa] in *. destruct (HA e' He' Hcv') as (b & NM' & B1 & B2 & B3). exists b, NM'. split; [ exact B1 | ]. split; [ | exact B3 ].
           destruct B3 as (B3 & B4 & _). destruct (elt_dec e' e) as [->|Hne]; [ congruence | ]. rewrite Hcell; [ exact B2 | assumption.. | unfold W; lia ].
        -- exact HM.
        -- intros e' He' Hf k Hk. destruct (elt_dec e' e) as [->|Hne]; [ rewrite Op by lia; apply HC; assumption | ]. rewrite Hcell by (try assumption; lia). apply HC; assumption.
  - rewrite E in E'. assert (q = p') by congruence. subst q. exact HA.
Qed.
End Accept.

Section Run.
Variables (s : fsys) (tensor iso : bool) (Jm mx c : Z) (states : list pw) (V C : list R * list R).
Hypothesis Hsys : channel_system s tensor iso Jm mx c states V C.
Hypothesis HD : (1 <= zn (s_D s) <= 2 ^ 28)%Z.
Let A := kernel_matrix s tensor iso states V C.
Variable det : list cdouble -> nat -> cdouble.
Variables f fb : nat -> cdouble.
Notation nE := (s_nd s * s_nd s * s_nq s).
Notation nB := (if s_breakup s then s_nd s * s_nBU s else 0).
Notation coef := (coef_of s A).
Let HG := HG s tensor iso Jm mx c states V C Hsys.
Let Hq := Hq s tensor iso Jm mx c states V C Hsys.
Let Hd := Hd s tensor iso Jm mx c states V C Hsys.
Let HNp := HNp s tensor iso Jm mx c states V C Hsys.
Let Hcol := link_col s tensor iso Jm mx c states V C Hsys.
Let Hrows := link_rows s tensor iso Jm mx c states V C Hsys.
Let Hends := link_ends s tensor iso Jm mx c states V C Hsys.
Let Hcells := link_cells s tensor iso Jm mx c states V C Hsys.

Lemma accepted_run v : pade_run det (Some f, Some fb) s (ncn s) (s_D s / ncn s + 1) = Ok v ->
  all_accepted det coef (el_elts s) (v_el v) /\ all_accepted det coef (bu_elts s) (v_bu v).
Proof.
  intros E. unfold pade_run in E. destruct (init_ok s A HG Hcol Hends Hrows Hq Hd HNp Hcells (repeat false nE) (repeat false nB)) as (n0 & E0 & I0).
  rewrite E0 in E. cbn [obind] in E.
  destruct (gel s tensor iso Jm mx c states V C Hsys) as [G1 J1]. destruct (gbu s tensor iso Jm mx c states V C Hsys) as [G2 J2].
  assert (G : forall k, k <= W -> exists v m, ofold (nm_step det (Some f, Some fb) s (ncn s) (s_D s / ncn s + 1)) (seq 0 k) (mksolver n0 (fresh_pst nE) (fresh_pst nB) 0) = Ok v /\
     m <= k /\ good_state s A det m v /\ (m = k \/ v_count v = nE) /\ all_accepted det coef (el_elts s) (v_el v) /\ all_accepted det coef (bu_elts s) (v_bu v)).
  { induction k as [|k IH]; intros Hk.
    - exists (mksolver n0 (fresh_pst nE) (fresh_pst nB) 0), 0. split; [ reflexivity | ]. split; [ lia | ]. split; [ apply (fresh_ok s A HG Hcol Hends Hq Hd HNp det f fb); exact I0 | ].
      split; [ left; reflexivity | ]. cbn [v_el v_bu]. split; apply accepted_fresh.
    - destruct (IH ltac:(lia)) as (w & m & Ew & Hm & Gs & Hor & Q1 & Q2). rewrite seq_S, ofold_app, Ew. cbn [obind ofold plus].
      destruct (Nat.eq_dec (v_count w) nE) as [Heq|Hne].
      + exists w, m. split; [ | split; [ lia | split; [ exact Gs | split; [ right; exact Heq | split; assumption ] ] ] ].
        unfold nm_step. rewrite Heq, Nat.eqb_refl. reflexivity.
      + destruct Hor as [->|Hx]; [ | contradiction ].
        destruct (nm_ok s A HG Hcol Hends Hq Hd HNp Hcells det f fb (ncn s) k w (ncn_pos s tensor iso Jm mx c states V C Hsys HD) ltac:(lia) Gs Hne) as (v' & E' & Gs'). rewrite E'. cbn [obind].
        exists v', (S k). split; [ reflexivity | ]. split; [ lia | ]. split; [ exact Gs' | ]. split; [ left; reflexivity | ].
        unfold nm_step in E'. replace (v_count w =? nE) with false in E' by (symmetry; apply Nat.eqb_neq; exact Hne).
        destruct Gs as [K1 K2 K3 K4 K5 K6 K7]. assert (HNW : k < W) by lia.
        assert (Hcv : conv_ok s (p_conv (v_el w)) (p_conv (v_bu w))) by (split; [ apply K1 | apply K2 ]).
        destruct (ns_ok s A HG Hcol Hends Hq Hd HNp Hcells det f fb (ncn s) k _ _ (v_n w) (ncn_pos s tensor iso Jm mx c states V C Hsys HD) HNW Hcv K5) as (n' & E1 & I1).
        rewrite E1 in E'. cbn [obind fst snd] in E'. assert (HN : k <= 14) by (unfold W, NM_max in HNW; lia).
        destruct (pade_order det (Some f) k (n_a n') (el_elts s) (v_el w, v_count w)) as [[el cn]| | |] eqn:E2; cbn [obind] in E'; try discriminate.
        destruct (pade_order det (Some fb) k (n_abu n') (bu_elts s) (v_bu w, cn)) as [[bu cn']| | |] eqn:E3; cbn [obind] in E'; try discriminate.
        assert (v' = mksolver n' el bu cn') by congruence. subst v'. cbn [v_el v_bu]. split.
        * refine (accepted_order det coef f nE (el_elts s) k (n_a n') (v_el w) (v_count w) el cn (fun e He => proj1 (G1 e He)) J1 K1 HNW K3 _ E2 Q1).
          intros e He Hf j Hj. split; [ | apply (i_a _ _ _ _ _ _ I1); [ exact He | exact Hf | lia ] ].
          rewrite (i_la _ _ _ _ _ _ I1). apply rm_lt; [ apply G1; exact He | unfold num_terms; lia ].
        * refine (accepted_order det coef fb nB (bu_elts s) k (n_abu n') (v_bu w) cn bu cn' (fun e He => proj1 (G2 e He)) J2 K2 HNW K4 _ E3 Q2).
          intros e He Hf j Hj. split; [ | apply (i_abu _ _ _ _ _ _ I1); [ exact He | exact Hf | lia ] ].
          rewrite (i_lbu _ _ _ _ _ _ I1). apply rm_lt; [ apply G2; exact He | unfold num_terms; lia ]. }
  destruct (G W (le_n _)) as (w & m & Ew & _ & _ & _ & Q). assert (w = v) by (unfold W in Ew; congruence). subst w. exact Q.
Qed.

Lemma accepted_reported U UBU U' UBU' : pade_method_solve det (Some f, Some fb) s U UBU = Ok (U', UBU') ->
  (forall e, In e (el_elts s) -> exists b NM, nth (e_idx e) U' c0 = PA det coef e b /\ accepted_at det coef e b NM) /\
  (forall e, In e (bu_elts s) -> exists b NM, nth (e_idx e) UBU' c0 = PA det coef e b /\ accepted_at det coef e b NM).
Proof.
  intros E. rewrite (solve_eq s tensor iso Jm mx c states V C Hsys HD det) in E.
  destruct (run_ok s A HG Hcol Hends Hrows Hq Hd HNp Hcells det f fb (ncn s) (ncn_pos s tensor iso Jm mx c states V C Hsys HD)) as (v & m & Er & _ & Gs & _).
  rewrite Er in E. cbn [obind] in E.
  destruct (report (v_el v) (el_elts s) U) as [U1| | |] eqn:EU; cbn [obind] in E; try discriminate.
  destruct (report (v_bu v) (bu_elts s) UBU) as [U2| | |] eqn:EB; cbn [obind] in E; try discriminate.
  assert (U1 = U' /\ U2 = UBU') by (split; congruence). destruct H; subst U1 U2.
  destruct (gel s tensor iso Jm mx c states V C Hsys) as [G1 J1]. destruct (gbu s tensor iso Jm mx c states V C Hsys) as [G2 J2].
  destruct (accepted_run v Er) as [Q1 Q2].
  assert (Gen : forall l p W0 W1, report p l W0 = Ok W1 -> (forall e e', In e l -> In e' l -> e_idx e = e_idx e' -> e = e') ->
     (forall e, In e l -> elt_ok det coef m p e) -> all_accepted det coef l p -> forall e, In e l -> exists b NM, nth (e_idx e) W1 c0 = PA det coef e b /\ accepted_at det coef e b NM).
  { intros l p W0 W1 Er' J Hok Q e He. destruct (report_read p l W0 W1 J Er' e He) as (b & B1 & B2).
    destruct (Bool.bool_dec (nth (e_idx e) (p_conv p) false) true) as [Hc|Hc].
    - destruct (Q e He Hc) as (b' & NM & X1 & X2 & X3). assert (b' = b) by congruence. subst b'. exists b, NM. split; [ rewrite B2; exact X2 | exact X3 ].
    - apply Bool.not_true_is_false in Hc. destruct (proj1 (Hok e He) Hc) as [Hn _]. congruence. }
  split.
  - exact (Gen _ _ _ _ EU J1 (g_el _ _ _ _ _ Gs) Q1).
  - exact (Gen _ _ _ _ EB J2 (g_bu _ _ _ _ _ Gs) Q2).
Qed.
End Run.
