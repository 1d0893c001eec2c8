(* Which approximant is reported: the stopping rule, element by element. *)
From Coq Require Import Reals Lra ZifyBool.
From Verif Require Import Common ArrayLib PWModel SwpModel SwpProofs ResolventModel GridSpec PotentialSpec
  KernelModel KernelSpec FaddeevModel FaddeevSpec FaddeevProofs FaddeevStepProofs FaddeevLink FaddeevPadeProofs FaddeevSolveProofs.
Open Scope nat_scope.

Lemma Rltb_lt x y : (x < y)%R -> Rltb x y = true.
Proof. intros H. unfold Rltb. destruct (Rlt_dec x y); [ reflexivity | contradiction ]. Qed.
Lemma Rltb_ge x y : (y <= x)%R -> Rltb x y = false.
Proof. intros H. unfold Rltb. destruct (Rlt_dec x y); [ lra | reflexivity ]. Qed.

Section Rule.
Variables (s : fsys) (tensor iso : bool) (Jm mx c : Z) (states : list pw) (V C : list R * list R).
Hypothesis Hsys : channel_system s tensor iso Jm mx c states V C.
Hypothesis HD : (1 <= zn (s_D s) <= 2 ^ 28)%Z.
Let A := kernel_matrix s tensor iso states V C.
Variable det : list cdouble -> nat -> cdouble.
Variables f fb : nat -> cdouble.
Notation nE := (nEL s).
Notation nB := (nBU s).
Notation coef := (coef_of s A).
Notation PAe := (PA det coef).
Let HG := HG s tensor iso Jm mx c states V C Hsys.
Let Hq := Hq s tensor iso Jm mx c states V C Hsys.
Let Hd := Hd s tensor iso Jm mx c states V C Hsys.
Let HNp := HNp s tensor iso Jm mx c states V C Hsys.
Let Hcol := link_col s tensor iso Jm mx c states V C Hsys.
Let Hrows := link_rows s tensor iso Jm mx c states V C Hsys.
Let Hends := link_ends s tensor iso Jm mx c states V C Hsys.
Let Hcells := link_cells s tensor iso Jm mx c states V C Hsys.

(* what is compared with the Born term: zero, or for the element stored first whatever lies before the array *)
Definition ref (g : nat -> cdouble) (e : elt) (NM : nat) : cdouble := match e_idx e with O => g NM | S _ => c0 end.
Definition bestr (g : nat -> cdouble) (e : elt) (NM : nat) : nat * R := best_val det coef NM e (ref g e NM).
Definition stopr (g : nat -> cdouble) (e : elt) (NM : nat) : bool := conv_val det coef NM e (bestr g e NM).
Definition first_stop (g : nat -> cdouble) (e : elt) (NM : nat) : Prop := stopr g e NM = true /\ forall k, k < NM -> stopr g e k = false.

Definition rule (g : nat -> cdouble) (l : list elt) (m : nat) (p : pst) : Prop :=
  (m <= NM_max -> (forall i, nth (i * W + NM_max) (p_pa p) c0 = c0) /\
     forall e, In e l -> nth (e_idx e) (p_conv p) false = existsb (stopr g e) (seq 0 m)) /\
  (forall e NM, In e l -> NM < m -> NM < NM_max -> first_stop g e NM ->
     nth (e_idx e) (p_conv p) false = true /\ nth (e_idx e) (p_best p) None = Some (fst (bestr g e NM)) /\
     nth (e_idx e * W + fst (bestr g e NM)) (p_pa p) c0 = PAe e (fst (bestr g e NM))).

Lemma rule_fresh g l n : rule g l 0 (fresh_pst n).
Proof.
  split; [ | intros; lia ]. intros _. cbn [fresh_pst p_pa p_conv]. split; [ intros i; apply nth_repeat | ]. intros e _. rewrite nth_repeat. reflexivity.
Qed.

Lemma best_le NM e y : fst (best_val det coef NM e y) <= NM.
Proof.
  unfold best_val. assert (G : forall l (a : nat * R), (forall k, In k l -> k <= NM) -> fst a <= NM ->
    fst (fold_left (fun (acc : nat * R) k => let d := cabs (cadd (PAe e k) (copp (match k with O => y | S k' => PAe e k' end))) in
      if Rltb d (snd acc) && Rltb (1 / 10 ^ 15) d then (k, d) else acc) l a) <= NM).
  { induction l as [|k l IH]; intros a Hl Ha; [ exact Ha | ]. cbn [fold_left]. apply IH; [ intros k' Hk'; apply Hl; right; exact Hk' | ].
    cbv zeta. destruct (_ && _); [ apply Hl; left; reflexivity | exact Ha ]. }
  apply G; [ intros k Hk; apply in_seq in Hk; lia | cbn; lia ].
Qed.

Lemma rule_order g n l NM a p cnt p' cnt' : (forall e, In e l -> e_idx e < n) ->
  (forall e e', In e l -> In e' l -> e_idx e = e_idx e' -> e = e') -> NoDup l -> lens n p -> NM < W ->
  (forall e, In e l -> elt_ok det coef NM p e) ->
  (forall e, In e l -> nth (e_idx e) (p_conv p) false = false -> forall k, k <= 2 * NM -> e_idx e * num_terms + k < length a /\ nth (e_idx e * num_terms + k) a c0 = coef e k) ->
  pade_order det (Some g) NM a l (p, cnt) = Ok (p', cnt') -> rule g l NM p -> rule g l (S NM) p'.
Proof.
  intros Hlt Hinj Hnd HL HNW Hok Ha E [R1 R2].
  assert (Hk : forall i, keeps i p p') by (intros i; exact (pade_order_keeps _ _ _ _ _ _ _ _ _ i HNW E)).
  destruct (Nat.eq_dec NM NM_max) as [->|Hne].
  - split; [ intros; lia | ]. intros e NM' He H1 H2 Hs. destruct (R2 e NM' He ltac:(lia) H2 Hs) as (X1 & X2 & X3).
    destruct (Hk (e_idx e) X1) as (Y1 & Y2 & Y3). split; [ exact Y1 | ]. split; [ congruence | ].
    rewrite Y3; [ exact X3 | ]. pose proof (best_le NM' e (ref g e NM')) as Hb. fold (bestr g e NM') in Hb. unfold W. lia.
  - assert (HNM : NM < NM_max) by (unfold W in HNW; lia). destruct (R1 ltac:(lia)) as [Z1 Z2].
    destruct (pade_order_val det g coef n l Hlt Hinj NM a p cnt HL HNM Hnd) as (q & cn & E' & L' & O' & H' & _).
    { intros e He Hf. exact (proj2 (proj1 (Hok e He) Hf)). }
    { exact Ha. }
    assert (q = p') by congruence. subst q. clear E'.
    assert (Hbef : forall e, before g NM p e = ref g e NM).
    { intros e. unfold before, ref. destruct (e_idx e) as [|i]; [ reflexivity | ]. replace (S i * W - 1) with (i * W + NM_max) by (unfold W; lia). apply Z1. }
    split.
    + intros Hm. split.
      * intros i. rewrite O'; [ apply Z1 | ]. intros i' Heq. apply rm_inj in Heq; [ | unfold W; lia | exact HNW ]. destruct Heq. lia.
      * intros e He. destruct (H' e He) as [X1 _]. rewrite X1, (Z2 e He), Hbef. rewrite seq_S, existsb_app. cbn [existsb plus]. rewrite orb_false_r. reflexivity.
    + intros e NM' He H1 H2 Hs. destruct (Nat.eq_dec NM' NM) as [->|Hne'].
      * destruct (H' e He) as [X1 X2]. rewrite Hbef in X1, X2. fold (bestr g e NM) in X1, X2. fold (stopr g e NM) in X1, X2. destruct Hs as [Hs Hbf].
        rewrite Hs in X1, X2. rewrite orb_true_r in X1. split; [ exact X1 | ].
        assert (Hfz : nth (e_idx e) (p_conv p) false = false).
        { rewrite (Z2 e He). destruct (existsb (stopr g e) (seq 0 NM)) eqn:Ex; [ | reflexivity ]. apply existsb_exists in Ex. destruct Ex as (k & Hk' & Hst). apply in_seq in Hk'. rewrite Hbf in Hst by lia. discriminate. }
        destruct (X2 Hfz) as [Y1 Y2]. split; [ exact Y2 | ].
        pose proof (best_le NM e (ref g e NM)) as Hb. fold (bestr g e NM) in Hb.
        destruct (Nat.eq_dec (fst (bestr g e NM)) NM) as [->|Hn]; [ exact Y1 | ].
        rewrite O'. { apply (proj2 (proj1 (Hok e He) Hfz)). lia. }
        intros i Heq. apply rm_inj in Heq; [ lia | unfold W; lia | exact HNW ].
      * destruct (R2 e NM' He ltac:(lia) H2 Hs) as (X1 & X2 & X3).
        destruct (Hk (e_idx e) X1) as (Y1 & Y2 & Y3). split; [ exact Y1 | ]. split; [ congruence | ].
        rewrite Y3; [ exact X3 | ]. pose proof (best_le NM' e (ref g e NM')) as Hb. fold (bestr g e NM') in Hb. unfold W. lia.
Qed.

Lemma rule_nm NM v v' : NM < W -> good_state s A det NM v -> v_count v <> nE -> rule f (el_elts s) NM (v_el v) -> rule fb (bu_elts s) NM (v_bu v) ->
  nm_step det (Some f, Some fb) s (ncn s) (s_D s / ncn s + 1) v NM = Ok v' -> rule f (el_elts s) (S NM) (v_el v') /\ rule fb (bu_elts s) (S NM) (v_bu v').
Proof.
  intros HNW Gs Hc R1 R2 E. unfold nm_step in E. replace (v_count v =? s_nd s * s_nd s * s_nq s) with false in E by (symmetry; apply Nat.eqb_neq; exact Hc).
  destruct Gs as [K1 K2 K3 K4 K5 K6 K7].
  assert (Hcv : conv_ok s (p_conv (v_el v)) (p_conv (v_bu v))) by (split; [ apply K1 | apply K2 ]).
  destruct (ns_ok s A HG Hcol Hends Hq Hd HNp Hcells det f fb (ncn s) NM _ _ (v_n v) (ncn_pos s tensor iso Jm mx c states V C Hsys HD) HNW Hcv K5) as (n' & E1 & I1).
  rewrite E1 in E. cbn [obind fst snd] in E.
  destruct (gel s tensor iso Jm mx c states V C Hsys) as [G1 J1]. destruct (gbu s tensor iso Jm mx c states V C Hsys) as [G2 J2].
  assert (HN : NM <= 14) by (unfold W, NM_max in HNW; lia).
  destruct (pade_order det (Some f) NM (n_a n') (el_elts s) (v_el v, v_count v)) as [[el cn]| | |] eqn:E2; cbn [obind] in E; try discriminate.
  destruct (pade_order det (Some fb) NM (n_abu n') (bu_elts s) (v_bu v, cn)) as [[bu cn']| | |] eqn:E3; cbn [obind] in E; try discriminate.
  assert (v' = mksolver n' el bu cn') by congruence. subst v'. cbn [v_el v_bu]. split.
  - refine (rule_order f nE (el_elts s) NM (n_a n') (v_el v) (v_count v) el cn (fun e He => proj1 (G1 e He)) J1 _ K1 HNW K3 _ E2 R1).
    + exact (NoDup_el s A HG Hcol Hends Hq Hd HNp det f fb).
    + intros e He Hf k Hk. split; [ | apply (i_a _ _ _ _ _ _ I1); [ exact He | exact Hf | lia ] ].
      rewrite (i_la _ _ _ _ _ _ I1). apply rm_lt; [ apply G1; exact He | unfold num_terms; lia ].
  - refine (rule_order fb nB (bu_elts s) NM (n_abu n') (v_bu v) cn bu cn' (fun e He => proj1 (G2 e He)) J2 _ K2 HNW K4 _ E3 R2).
    + exact (NoDup_bu s A HG Hcol Hends Hq Hd HNp Hcells det f fb).
    + intros e He Hf k Hk. split; [ | apply (i_abu _ _ _ _ _ _ I1); [ exact He | exact Hf | lia ] ].
      rewrite (i_lbu _ _ _ _ _ _ I1). apply rm_lt; [ apply G2; exact He | unfold num_terms; lia ].
Qed.

Lemma rule_run : exists v m, pade_run det (Some f, Some fb) s (ncn s) (s_D s / ncn s + 1) = Ok v /\ good_state s A det m v /\ m <= W /\ (m = W \/ v_count v = nE) /\
  rule f (el_elts s) m (v_el v) /\ rule fb (bu_elts s) m (v_bu v).
Proof.
  unfold pade_run. destruct (init_ok s A HG Hcol Hends Hrows Hq Hd HNp Hcells (repeat false nE) (repeat false nB)) as (n0 & E0 & I0).
  rewrite E0. cbn [obind]. change (s_nd s * s_nd s * s_nq s) with nE. change (if s_breakup s then s_nd s * s_nBU s else 0) with nB.
  assert (G : forall k, k <= W -> exists v m, ofold (nm_step det (Some f, Some fb) s (ncn s) (s_D s / ncn s + 1)) (seq 0 k) (mksolver n0 (fresh_pst nE) (fresh_pst nB) 0) = Ok v /\
     m <= k /\ good_state s A det m v /\ (m = k \/ v_count v = nE) /\ rule f (el_elts s) m (v_el v) /\ rule fb (bu_elts s) m (v_bu v)).
  { induction k as [|k IH]; intros Hk.
    - exists (mksolver n0 (fresh_pst nE) (fresh_pst nB) 0), 0. split; [ reflexivity | ]. split; [ lia | ]. split; [ apply (fresh_ok s A HG Hcol Hends Hq Hd HNp det f fb); exact I0 | ].
      split; [ left; reflexivity | ]. cbn [v_el v_bu]. split; apply rule_fresh.
    - destruct (IH ltac:(lia)) as (v & m & E & Hm & Gs & Hor & Q1 & Q2). rewrite seq_S, ofold_app, E. cbn [obind ofold plus].
      destruct (Nat.eq_dec (v_count v) nE) as [Heq|Hne].
      + exists v, m. split; [ | split; [ lia | split; [ exact Gs | split; [ right; exact Heq | split; assumption ] ] ] ].
        unfold nm_step. change (s_nd s * s_nd s * s_nq s) with nE. rewrite Heq, Nat.eqb_refl. reflexivity.
      + destruct Hor as [->|Hx]; [ | contradiction ].
        destruct (nm_ok s A HG Hcol Hends Hq Hd HNp Hcells det f fb (ncn s) k v (ncn_pos s tensor iso Jm mx c states V C Hsys HD) ltac:(lia) Gs Hne) as (v' & E' & Gs'). rewrite E'. cbn [obind].
        exists v', (S k). split; [ reflexivity | ]. split; [ lia | ]. split; [ exact Gs' | ]. split; [ left; reflexivity | ].
        apply (rule_nm k v v' ltac:(lia) Gs Hne Q1 Q2 E'). }
  destruct (G W (le_n _)) as (v & m & E & Hm & Gs & Hor & Q). exists v, m. split; [ exact E | ]. auto.
Qed.

Lemma elt_dec (a b : elt) : {a = b} + {a <> b}.
Proof. decide equality; apply Nat.eq_dec. Qed.
(* reported values are those of the recorded best order *)
Lemma report_read p l U U' : (forall e e', In e l -> In e' l -> e_idx e = e_idx e' -> e = e') -> report p l U = Ok U' ->
  forall e, In e l -> exists b, nth (e_idx e) (p_best p) None = Some b /\ nth (e_idx e) U' c0 = nth (e_idx e * W + b) (p_pa p) c0.
Proof.
  unfold report. revert U; induction l as [|x l IH]; intros U Hinj E e He; [ destruct He | ]. cbn [ofold] in E. unfold pread at 1 in E.
  destruct (nth_error (p_best p) (e_idx x)) as [[b|]|] eqn:Eb; cbn [obind] in E; try discriminate.
  destruct (aread (p_pa p) (e_idx x * (NM_max + 1) + b)) as [y| | |] eqn:Ey; cbn [obind] in E; try discriminate.
  destruct (awrite U (e_idx x) y) as [U1| | |] eqn:Eu; cbn [obind] in E; try discriminate.
  destruct (in_dec elt_dec e l) as [Hin|Hnin].
  { refine (IH U1 _ E e Hin). intros a a' H1 H2. apply Hinj; right; assumption. }
  destruct He as [<-|He]; [ | contradiction ].
  exists b. split; [ apply nth_error_nth; exact Eb | ].
  assert (Hy : nth (e_idx x * W + b) (p_pa p) c0 = y). { unfold aread in Ey. destruct (nth_error (p_pa p) _) as [c2|] eqn:En; [ | discriminate ]. apply nth_error_nth with (d := c0) in En. fold W in En. assert (c2 = y) by congruence. congruence. }
  rewrite Hy.
  assert (Hl : e_idx x < length U). { unfold awrite in Eu. destruct (e_idx x <? length U) eqn:El; [ apply Nat.ltb_lt; exact El | discriminate ]. }
  destruct (nth_awrite U (e_idx x) y c0 Hl) as (U2 & E2 & L2 & W2 & _). assert (U2 = U1) by congruence. subst U2.
  rewrite <- W2.
  (* the later writes do not touch x *)
  assert (Hrest : forall e', In e' l -> e_idx e' <> e_idx x). { intros e' He' Heq. apply Hnin. rewrite <- (Hinj e' x (or_intror He') (or_introl eq_refl) Heq). exact He'. }
  clear - E Hrest. revert U1 E Hrest; induction l as [|z l IH]; intros U1 E Hrest; [ cbn in E; congruence | ]. cbn [ofold] in E.
  destruct (pread (p_best p) (e_idx z)) as [b| | |]; cbn [obind] in E; try discriminate.
  destruct (aread (p_pa p) _) as [y| | |]; cbn [obind] in E; try discriminate.
  destruct (awrite U1 (e_idx z) y) as [U2| | |] eqn:Eu; cbn [obind] in E; try discriminate.
  rewrite (IH U2 E) by (intros e' He'; apply Hrest; right; exact He').
  apply (awrite_nth _ _ _ _ _ Eu). intros Heq. apply (Hrest z (or_introl eq_refl)). symmetry; exact Heq.
Qed.

(* the reported amplitude of an element that satisfies the rule before the last order *)
Lemma rule_reported U UBU U' UBU' : pade_method_solve det (Some f, Some fb) s U UBU = Ok (U', UBU') ->
  (forall e NM, In e (el_elts s) -> NM < NM_max -> first_stop f e NM -> nth (e_idx e) U' c0 = PAe e (fst (bestr f e NM))) /\
  (forall e NM, In e (bu_elts s) -> NM < NM_max -> first_stop fb e NM -> nth (e_idx e) UBU' c0 = PAe e (fst (bestr fb e NM))).
Proof.
  intros E. rewrite (solve_eq s tensor iso Jm mx c states V C Hsys HD det) in E.
  destruct rule_run as (v & m & Er & Gs & Hm & _ & Q1 & Q2). rewrite Er in E. cbn [obind] in E.
  destruct (report (v_el v) (el_elts s) U) as [U1| | |] eqn:EU; cbn [obind] in E; try discriminate.
  destruct (report (v_bu v) (bu_elts s) UBU) as [U2| | |] eqn:EB; cbn [obind] in E; try discriminate.
  assert (U1 = U' /\ U2 = UBU') by (split; congruence). destruct H; subst U1 U2.
  destruct (gel s tensor iso Jm mx c states V C Hsys) as [G1 J1]. destruct (gbu s tensor iso Jm mx c states V C Hsys) as [G2 J2].
  assert (Gen : forall g l p W0 W1, report p l W0 = Ok W1 -> (forall e e', In e l -> In e' l -> e_idx e = e_idx e' -> e = e') ->
     (forall e, In e l -> elt_ok det coef m p e) -> rule g l m p -> forall e NM, In e l -> NM < NM_max -> first_stop g e NM -> nth (e_idx e) W1 c0 = PAe e (fst (bestr g e NM))).
  { intros g l p W0 W1 Er' J Hok [Q0 Q] e NM He HNM Hst. destruct (report_read p l W0 W1 J Er' e He) as (b & B1 & B2).
    destruct (Nat.lt_ge_cases NM m) as [Hlt|Hge].
    - destruct (Q e NM He Hlt HNM Hst) as (_ & X2 & X3). assert (b = fst (bestr g e NM)) by congruence. subst b. rewrite B2. exact X3.
    - exfalso. destruct (Q0 ltac:(lia)) as [_ Hcv]. specialize (Hcv e He).
      assert (Hf : existsb (stopr g e) (seq 0 m) = false).
      { destruct (existsb (stopr g e) (seq 0 m)) eqn:Ex; [ | reflexivity ]. apply existsb_exists in Ex. destruct Ex as (k & Hk & Hs). apply in_seq in Hk. rewrite (proj2 Hst) in Hs by lia. discriminate. }
      rewrite Hf in Hcv. destruct (proj1 (Hok e He) Hcv) as [Hn _]. congruence. }
  split.
  - exact (Gen f _ _ _ _ EU J1 (g_el _ _ _ _ _ Gs) Q1).
  - exact (Gen fb _ _ _ _ EB J2 (g_bu _ _ _ _ _ Gs) Q2).
Qed.

(* ---------- the Born term ---------- *)
Lemma stop0 g e : let d := cabs (cadd (PAe e 0) (copp (ref g e 0))) in (1 / 10 ^ 15 < d < 1 / 10 ^ 7)%R -> first_stop g e 0 /\ fst (bestr g e 0) = 0.
Proof.
  intros d Hdd. assert (E : bestr g e 0 = (0, d)).
  { unfold bestr, best_val. cbn [seq plus fold_left snd]. fold d. rewrite (Rltb_lt d 1) by lra. rewrite (Rltb_lt (1 / 10 ^ 15) d) by lra. reflexivity. }
  unfold first_stop, stopr. rewrite E. split; [ | reflexivity ]. split; [ | intros; lia ]. unfold conv_val. cbn [fst snd].
  rewrite (Rltb_lt d (1 / 10 ^ 7)) by lra. rewrite orb_true_r. reflexivity.
Qed.
Lemma stop1 g e : cabs (cadd (PAe e 0) (copp (ref g e 0))) = 2%R -> cabs (cadd (PAe e 0) (copp (ref g e 1))) = 2%R -> (cabs (PAe e 0) <= 10 ^ 6)%R ->
  let d := cabs (cadd (PAe e 1) (copp (PAe e 0))) in (1 / 10 ^ 15 < d < 1 / 10 ^ 7)%R -> first_stop g e 1 /\ fst (bestr g e 1) = 1.
Proof.
  intros H0 H1 Hs d Hdd. assert (N2 : Rltb 2 1 = false) by (apply Rltb_ge; lra).
  assert (E0 : bestr g e 0 = (0, 1%R)).
  { unfold bestr, best_val. cbn [seq plus fold_left snd]. rewrite H0, N2. reflexivity. }
  assert (E1 : bestr g e 1 = (1, d)).
  { unfold bestr, best_val. cbn [seq plus fold_left snd]. rewrite H1, N2. cbn [andb fst snd]. fold d.
    rewrite (Rltb_lt d 1) by lra. rewrite (Rltb_lt (1 / 10 ^ 15) d) by lra. reflexivity. }
  unfold first_stop, stopr. rewrite E1. split; [ | reflexivity ]. split.
  - unfold conv_val. cbn [fst snd]. rewrite (Rltb_lt d (1 / 10 ^ 7)) by lra. rewrite orb_true_r. reflexivity.
  - intros k Hk. assert (k = 0) by lia. subst k. rewrite E0. unfold conv_val. cbn [fst snd].
    assert (X1 : Rltb 1 (1 / 10 ^ 6 * cabs (PAe e 0)) = false) by (apply Rltb_ge; lra).
    assert (X2 : Rltb 1 (1 / 10 ^ 7) = false) by (apply Rltb_ge; lra). rewrite X1, X2. reflexivity.
Qed.
Lemma cabs_shift x r : (0 <= r)%R -> cabs (cadd x (copp (cadd x (rc r)))) = r.
Proof.
  intros Hr. destruct x as [a b]. unfold cabs, cadd, copp, rc. cbn [fst snd].
  replace ((a + - (a + r)) * (a + - (a + r)) + (b + - (b + 0)) * (b + - (b + 0)))%R with (r * r)%R by ring. apply sqrt_square. exact Hr.
Qed.
Lemma cabs_c0 x : cabs (cadd x (copp c0)) = cabs x.
Proof. destruct x as [a b]. unfold cabs, cadd, copp, c0. cbn [fst snd]. f_equal. ring. Qed.
End Rule.
