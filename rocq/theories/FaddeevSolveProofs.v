(* What one order decides for each element; the whole solver. *)
From Coq Require Import Reals Lra ZifyBool.
From Verif Require Import Common ArrayLib PWModel SwpModel SwpProofs ResolventModel GridSpec PotentialSpec
  KernelModel KernelSpec FaddeevModel FaddeevSpec FaddeevProofs FaddeevStepProofs FaddeevLink FaddeevPadeProofs.
Open Scope nat_scope.

Section Decide.
Variables (det : list cdouble -> nat -> cdouble) (f : nat -> cdouble) (coef : elt -> nat -> cdouble) (n : nat) (l : list elt).
Hypothesis Hlt : forall e, In e l -> e_idx e < n.
Hypothesis Hinj : forall e e', In e l -> In e' l -> e_idx e = e_idx e' -> e = e'.
Notation PAe := (PA det coef).

(* the best order and its difference, given what is found in the place before the first approximant *)
Definition best_val (NM : nat) (e : elt) (y0 : cdouble) : nat * R :=
  fold_left (fun (acc : nat * R) k =>
    let d := cabs (cadd (PAe e k) (copp (match k with O => y0 | S k' => PAe e k' end))) in
    if Rltb d (snd acc) && Rltb (1 / 10 ^ 15) d then (k, d) else acc) (seq 0 (NM + 1)) (0, 1%R).
Definition conv_val (NM : nat) (e : elt) (bm : nat * R) : bool :=
  (NM =? NM_max) || (4 <? NM - fst bm) || Rltb (snd bm) (1 / 10 ^ 6 * cabs (PAe e (fst bm))) || Rltb (snd bm) (1 / 10 ^ 7).
Definition before (NM : nat) (p : pst) (e : elt) : cdouble := match e_idx e with O => f NM | S _ => nth (e_idx e * W - 1) (p_pa p) c0 end.

Lemma ofold_ext_inv {S X} (F G : S -> X -> outcome S) l0 s0 : (forall x s, In x l0 -> F s x = G s x) -> ofold F l0 s0 = ofold G l0 s0.
Proof. intros H. revert s0; induction l0 as [|x l0 IH]; intros s0; [ reflexivity | ]. cbn [ofold]. rewrite H by (left; reflexivity). destruct (G s0 x); cbn [obind]; try reflexivity. apply IH. intros y t Hy; apply H; right; exact Hy. Qed.

Lemma best_eq NM e pa y0 : In e l -> length pa = n * W -> NM < W ->
  (forall k, k <= NM -> nth (e_idx e * W + k) pa c0 = PAe e k) ->
  y0 = match e_idx e with O => f NM | S _ => nth (e_idx e * W - 1) pa c0 end ->
  ofold (best_step (Some f) NM pa (e_idx e)) (seq 0 (NM + 1)) (0, 1%R) = Ok (best_val NM e y0).
Proof.
  intros He Lp HNM Hc ->. unfold best_val. apply ofold_pure. intros k acc Hk. apply in_seq in Hk. unfold best_step. fold W.
  pose proof (Hlt e He) as Hi. assert (B : e_idx e * W + k < n * W) by (apply rm_lt; [ exact Hi | lia ]).
  rewrite (aread_nth _ _ c0) by lia. cbn [obind]. rewrite Hc by lia. unfold pread_before. fold W.
  assert (E : match e_idx e * W + k with 0 => Ok (f NM) | S m => aread pa m end =
     Ok (match k with O => match e_idx e with O => f NM | S _ => nth (e_idx e * W - 1) pa c0 end | S k' => PAe e k' end)).
  { destruct k as [|k'].
    - destruct (e_idx e) as [|i] eqn:Ei; [ reflexivity | ]. replace (S i * W + 0) with (S (S i * W - 1)) by (unfold W; lia).
      rewrite (aread_nth _ _ c0); [ reflexivity | ]. lia.
    - replace (e_idx e * W + S k') with (S (e_idx e * W + k')) by lia. rewrite (aread_nth _ _ c0) by lia. rewrite Hc by lia. reflexivity. }
  rewrite E. cbn [obind]. destruct (Rltb _ (snd acc) && Rltb (1 / 10 ^ 15) _); reflexivity.
Qed.

Lemma pade_element_val NM a p cnt e : In e l -> lens n p -> NM < W -> nth (e_idx e) (p_conv p) false = false ->
  (forall k, k < NM -> nth (e_idx e * W + k) (p_pa p) c0 = PAe e k) ->
  (forall k, k <= 2 * NM -> e_idx e * num_terms + k < length a /\ nth (e_idx e * num_terms + k) a c0 = coef e k) ->
  exists pa, length pa = length (p_pa p) /\ (forall j, j <> e_idx e * W + NM -> nth j pa c0 = nth j (p_pa p) c0) /\ nth (e_idx e * W + NM) pa c0 = PAe e NM /\
   let bm := best_val NM e (before NM p e) in
   if conv_val NM e bm then
     exists cv bs, pade_element det (Some f) NM a (p, cnt) (e_idx e) = Ok (mkpst pa bs cv, S cnt) /\ awrite (p_conv p) (e_idx e) true = Ok cv /\
       awrite (p_best p) (e_idx e) (Some (fst bm)) = Ok bs
   else pade_element det (Some f) NM a (p, cnt) (e_idx e) = Ok (mkpst pa (p_best p) (p_conv p), cnt).
Proof.
  intros He (L1 & L2 & L3) HNM Ec Hcell Ha. pose proof (Hlt e He) as Hi.
  assert (B : e_idx e * W + NM < n * W) by (apply rm_lt; [ exact Hi | exact HNM ]).
  destruct (nth_awrite (p_pa p) (e_idx e * W + NM) (PAe e NM) c0 ltac:(lia)) as (pa & E1 & Lp & W1 & O1).
  exists pa. split; [ exact Lp | ]. split; [ exact O1 | ]. split; [ exact W1 | ]. cbv zeta. set (bm := best_val NM e (before NM p e)).
  assert (Hc : forall k, k <= NM -> nth (e_idx e * W + k) pa c0 = PAe e k).
  { intros k Hk. destruct (Nat.eq_dec k NM) as [->|Hne]; [ exact W1 | ]. rewrite O1 by lia. apply Hcell. lia. }
  assert (Hb : before NM p e = match e_idx e with O => f NM | S _ => nth (e_idx e * W - 1) pa c0 end).
  { unfold before. destruct (e_idx e) as [|i] eqn:Ei; [ reflexivity | ]. symmetry. apply O1. unfold W. lia. }
  pose proof (best_eq NM e pa (before NM p e) He ltac:(congruence) HNM Hc Hb) as Eb. fold bm in Eb.
  assert (Hbm : fst bm <= NM).
  { destruct (best_ok det f coef n l Hlt Hinj NM e pa He ltac:(congruence) HNM) as (bm' & E' & H'). rewrite Eb in E'. assert (bm = bm') by congruence. congruence. }
  unfold pade_element. cbn [fst snd]. rewrite (aread_nth _ _ false) by lia. cbn [obind]. rewrite Ec.
  rewrite (pade_reads det _ (coef e)) by (intros k Hk; destruct (Ha k Hk) as [Bk E]; rewrite (aread_nth _ _ c0 Bk), E; reflexivity).
  cbn [obind]. change (pade_val det (coef e) NM c1) with (PAe e NM). fold W. rewrite E1. cbn [obind]. rewrite Eb. cbn [obind].
  assert (B2 : e_idx e * W + fst bm < n * W) by (apply rm_lt; [ exact Hi | lia ]).
  rewrite (aread_nth _ _ c0) by lia. cbn [obind]. rewrite Hc by exact Hbm. fold (conv_val NM e bm).
  destruct (conv_val NM e bm).
  - destruct (nth_awrite (p_conv p) (e_idx e) true false ltac:(lia)) as (cv & E3 & _).
    destruct (nth_awrite (p_best p) (e_idx e) (Some (fst bm)) None ltac:(lia)) as (bs & E4 & _).
    exists cv, bs. rewrite E3. cbn [obind]. rewrite E4. auto.
  - reflexivity.
Qed.

(* all elements of one order below the last: what is decided for each does not depend on the others *)
Lemma pade_order_val NM a p cnt : lens n p -> NM < NM_max -> NoDup l ->
  (forall e, In e l -> nth (e_idx e) (p_conv p) false = false -> forall k, k < NM -> nth (e_idx e * W + k) (p_pa p) c0 = PAe e k) ->
  (forall e, In e l -> nth (e_idx e) (p_conv p) false = false -> forall k, k <= 2 * NM -> e_idx e * num_terms + k < length a /\ nth (e_idx e * num_terms + k) a c0 = coef e k) ->
  exists p' cnt', pade_order det (Some f) NM a l (p, cnt) = Ok (p', cnt') /\ lens n p' /\
    (forall j, (forall i, j <> i * W + NM) -> nth j (p_pa p') c0 = nth j (p_pa p) c0) /\
    (forall e, In e l -> let bm := best_val NM e (before NM p e) in
       nth (e_idx e) (p_conv p') false = nth (e_idx e) (p_conv p) false || conv_val NM e bm /\
       (nth (e_idx e) (p_conv p) false = false -> nth (e_idx e * W + NM) (p_pa p') c0 = PAe e NM /\
         nth (e_idx e) (p_best p') None = if conv_val NM e bm then Some (fst bm) else nth (e_idx e) (p_best p) None)) /\
    cnt' = cnt + length (filter (fun e => negb (nth (e_idx e) (p_conv p) false) && conv_val NM e (best_val NM e (before NM p e))) l).
Proof.
  intros HL HNM Hnd Hcell Ha. unfold pade_order. assert (HNW : NM < W) by (unfold W; lia).
  set (dec := fun e => conv_val NM e (best_val NM e (before NM p e))).
  destruct (ofold_inv (fun dn (st : pst * nat) => lens n (fst st) /\
      (forall j, (forall i, j <> i * W + NM) -> nth j (p_pa (fst st)) c0 = nth j (p_pa p) c0) /\
      (forall e, In e l -> ~ In e dn -> nth (e_idx e) (p_conv (fst st)) false = nth (e_idx e) (p_conv p) false /\
          nth (e_idx e) (p_best (fst st)) None = nth (e_idx e) (p_best p) None /\
          forall k, k < W -> nth (e_idx e * W + k) (p_pa (fst st)) c0 = nth (e_idx e * W + k) (p_pa p) c0) /\
      (forall e, In e dn -> nth (e_idx e) (p_conv (fst st)) false = nth (e_idx e) (p_conv p) false || dec e /\
         (nth (e_idx e) (p_conv p) false = false -> nth (e_idx e * W + NM) (p_pa (fst st)) c0 = PAe e NM /\
           nth (e_idx e) (p_best (fst st)) None = if dec e then Some (fst (best_val NM e (before NM p e))) else nth (e_idx e) (p_best p) None)) /\
      snd st = cnt + length (filter (fun e => negb (nth (e_idx e) (p_conv p) false) && dec e) dn))
    (fun st e => pade_element det (Some f) NM a st (e_idx e)) l (p, cnt)) as ([p' cnt'] & E & H).
  - cbn [fst snd filter length]. split; [ exact HL | ]. split; [ auto | ]. split; [ auto | ]. split; [ intros e [] | lia ].
  - intros dn e rest [q c] Hl (K1 & K2 & K3 & K4 & K5). cbn [fst snd] in *.
    assert (He : In e l) by (rewrite Hl; apply in_or_app; right; left; reflexivity).
    assert (Hni : ~ In e dn). { intros Hin. rewrite Hl in Hnd. apply NoDup_remove_2 in Hnd. apply Hnd. apply in_or_app. left; exact Hin. }
    destruct (K3 e He Hni) as (C1 & C2 & C3).
    assert (Hcase : forall e', In e' l -> e' <> e -> e_idx e' <> e_idx e) by (intros e' He' Hne Heq; apply Hne, Hinj; assumption).
    assert (Hdn : forall e', In e' dn -> In e' l /\ e' <> e).
    { intros e' He'. split; [ rewrite Hl; apply in_or_app; left; exact He' | intros ->; contradiction ]. }
    assert (Hnin : forall e', ~ In e' (dn ++ [e]) -> ~ In e' dn /\ e' <> e).
    { intros e' H. split; [ intros Hx; apply H, in_or_app; left; exact Hx | intros ->; apply H, in_or_app; right; left; reflexivity ]. }
    rewrite filter_app, app_length. cbn [filter].
    destruct (nth (e_idx e) (p_conv p) false) eqn:Ec.
    + exists (q, c). split.
      { unfold pade_element. cbn [fst snd]. destruct K1 as (_ & _ & L3). rewrite (aread_nth _ _ false) by (rewrite L3; apply Hlt; exact He). cbn [obind]. rewrite C1. reflexivity. }
      cbn [fst snd negb andb length]. split; [ exact K1 | ]. split; [ exact K2 | ]. split; [ intros e' He' Hx; apply K3; [ exact He' | apply (Hnin e' Hx) ] | ].
      split; [ | lia ]. intros e' He'. apply in_app_or in He'. destruct He' as [He'|[<-|[]]]; [ apply K4; exact He' | ].
      rewrite C1, Ec. split; [ reflexivity | discriminate ].
    + assert (Hbef : before NM q e = before NM p e).
      { unfold before. destruct (e_idx e) as [|i] eqn:Ei; [ reflexivity | ]. apply K2. intros i' Heq.
        assert (Hx : S i * W - 1 = i * W + NM_max) by (unfold W; lia). rewrite Hx in Heq. apply rm_inj in Heq; [ lia | unfold W; lia | exact HNW ]. }
      destruct (pade_element_val NM a q c e He K1 HNW C1) as (pa & Lp & Op & Wp & Hval).
      { intros k Hk. rewrite C3 by lia. apply Hcell; assumption. }
      { apply Ha; assumption. }
      rewrite Hbef in Hval. cbv zeta in Hval. fold (dec e) in Hval.
      assert (Hframe : forall e', In e' l -> e' <> e -> forall k, k < W -> nth (e_idx e' * W + k) pa c0 = nth (e_idx e' * W + k) (p_pa q) c0).
      { intros e' He' Hne k Hk. apply Op. intros Heq. apply (Hcase e' He' Hne). apply rm_inj in Heq; [ tauto | exact Hk | exact HNW ]. }
      destruct K1 as (L1 & L2 & L3). destruct (dec e) eqn:Ed.
      * destruct Hval as (cv & bs & E & Ecv & Ebs). exists (mkpst pa bs cv, S c). split; [ exact E | ]. cbn [fst snd p_pa p_best p_conv negb andb length].
        destruct (nth_awrite (p_conv q) (e_idx e) true false ltac:(rewrite L3; apply Hlt; exact He)) as (cv' & Ecv' & Lcv & Wcv & Ocv).
        assert (cv' = cv) by congruence. subst cv'.
        destruct (nth_awrite (p_best q) (e_idx e) (Some (fst (best_val NM e (before NM p e)))) None ltac:(rewrite L2; apply Hlt; exact He)) as (bs' & Ebs' & Lbs & Wbs & Obs).
        assert (bs' = bs) by congruence. subst bs'.
        split; [ unfold lens; cbn [p_pa p_best p_conv]; repeat split; congruence | ].
        split; [ intros j Hj; rewrite Op by apply Hj; apply K2; exact Hj | ]. split.
        { intros e' He' Hx. destruct (Hnin e' Hx) as [X1 X2]. destruct (K3 e' He' X1) as (Y1 & Y2 & Y3).
          rewrite Ocv, Obs by (apply Hcase; assumption). split; [ exact Y1 | ]. split; [ exact Y2 | ]. intros k Hk. rewrite Hframe by assumption. apply Y3; exact Hk. }
        split; [ | lia ]. intros e' He'. apply in_app_or in He'. destruct He' as [He'|[<-|[]]].
        { destruct (Hdn e' He') as [X1 X2]. destruct (K4 e' He') as [Y1 Y2]. rewrite Ocv, Obs by (apply Hcase; assumption). split; [ exact Y1 | ].
          intros Hf. destruct (Y2 Hf) as [Z1 Z2]. split; [ rewrite Hframe by assumption; exact Z1 | exact Z2 ]. }
        { rewrite Wcv, Wbs, Ed, Ec. split; [ reflexivity | ]. intros _. split; [ exact Wp | reflexivity ]. }
      * exists (mkpst pa (p_best q) (p_conv q), c). split; [ exact Hval | ]. cbn [fst snd p_pa p_best p_conv negb andb length].
        split; [ unfold lens; cbn [p_pa p_best p_conv]; repeat split; congruence | ].
        split; [ intros j Hj; rewrite Op by apply Hj; apply K2; exact Hj | ]. split.
        { intros e' He' Hx. destruct (Hnin e' Hx) as [X1 X2]. destruct (K3 e' He' X1) as (Y1 & Y2 & Y3).
          split; [ exact Y1 | ]. split; [ exact Y2 | ]. intros k Hk. rewrite Hframe by assumption. apply Y3; exact Hk. }
        split; [ | lia ]. intros e' He'. apply in_app_or in He'. destruct He' as [He'|[<-|[]]].
        { destruct (Hdn e' He') as [X1 X2]. destruct (K4 e' He') as [Y1 Y2]. split; [ exact Y1 | ].
          intros Hf. destruct (Y2 Hf) as [Z1 Z2]. split; [ rewrite Hframe by assumption; exact Z1 | exact Z2 ]. }
        { rewrite C1, C2, Ed, Ec. split; [ reflexivity | ]. intros _. split; [ exact Wp | reflexivity ]. }
  - exists p', cnt'. cbn [fst snd] in H. destruct H as (K1 & K2 & _ & K4 & K5). split; [ exact E | ]. split; [ exact K1 | ]. split; [ exact K2 | ].
    split; [ exact K4 | exact K5 ].
Qed.
End Decide.

(* ---------- what has converged stays ---------- *)
Definition keeps (i : nat) (p p' : pst) : Prop :=
  nth i (p_conv p) false = true -> nth i (p_conv p') false = true /\ nth i (p_best p') None = nth i (p_best p) None /\
    forall k, k < W -> nth (i * W + k) (p_pa p') c0 = nth (i * W + k) (p_pa p) c0.
Lemma keeps_trans i p q r : keeps i p q -> keeps i q r -> keeps i p r.
Proof.
  intros H1 H2 Hc. destruct (H1 Hc) as (A1 & A2 & A3). destruct (H2 A1) as (B1 & B2 & B3).
  split; [ exact B1 | ]. split; [ congruence | ]. intros k Hk. rewrite B3, A3 by exact Hk. reflexivity.
Qed.
Lemma awrite_nth {X} (a a' : list X) i v d : awrite a i v = Ok a' -> forall j, j <> i -> nth j a' d = nth j a d.
Proof.
  intros E. destruct (Nat.lt_ge_cases i (length a)) as [Hlt|Hge].
  - destruct (nth_awrite a i v d Hlt) as (b & E' & _ & _ & O). assert (b = a') by congruence. subst b. exact O.
  - unfold awrite in E. replace (i <? length a) with false in E by (symmetry; apply Nat.ltb_ge; exact Hge). discriminate.
Qed.
Lemma pade_element_keeps det stray NM a p cnt p' cnt' i j : NM < W -> pade_element det stray NM a (p, cnt) j = Ok (p', cnt') -> keeps i p p'.
Proof.
  intros HNM E. unfold pade_element in E. cbn [fst snd] in E. unfold aread at 1 in E.
  destruct (nth_error (p_conv p) j) as [c|] eqn:Ec; cbn [obind] in E; [ | discriminate ]. destruct c.
  - assert (p' = p) by congruence. subst p'. intros Hc. auto.
  - intros Hc. assert (Hne : i <> j) by (intros ->; rewrite (nth_error_nth _ _ false Ec) in Hc; discriminate).
    destruct (pade_approximant _ _ _ _ _) as [v| | |]; cbn [obind] in E; try discriminate.
    destruct (awrite (p_pa p) (j * (NM_max + 1) + NM) v) as [pa| | |] eqn:E1; cbn [obind] in E; try discriminate.
    destruct (ofold _ _ _) as [bm| | |]; cbn [obind] in E; try discriminate.
    destruct (aread pa _) as [b| | |]; cbn [obind] in E; try discriminate.
    assert (Hpa : forall k, k < W -> nth (i * W + k) pa c0 = nth (i * W + k) (p_pa p) c0).
    { intros k Hk. apply (awrite_nth _ _ _ _ _ E1). fold W. intros Heq. apply rm_inj in Heq; [ tauto | exact Hk | exact HNM ]. }
    destruct (_ || _) in E.
    + destruct (awrite (p_conv p) j true) as [cv| | |] eqn:E2; cbn [obind] in E; try discriminate.
      destruct (awrite (p_best p) j _) as [bs| | |] eqn:E3; cbn [obind] in E; try discriminate.
      assert (p' = mkpst pa bs cv) by congruence. subst p'. cbn [p_pa p_best p_conv].
      rewrite (awrite_nth _ _ _ _ false E2 i Hne), (awrite_nth _ _ _ _ None E3 i Hne). auto.
    + assert (p' = mkpst pa (p_best p) (p_conv p)) by congruence. subst p'. cbn [p_pa p_best p_conv]. auto.
Qed.
Lemma pade_order_keeps det stray NM a l p cnt p' cnt' i : NM < W -> pade_order det stray NM a l (p, cnt) = Ok (p', cnt') -> keeps i p p'.
Proof.
  intros HNM. unfold pade_order. revert p cnt; induction l as [|e l IH]; intros p cnt E.
  - cbn in E. assert (p' = p) by congruence. subst p'. intros Hc. auto.
  - cbn [ofold] in E. destruct (pade_element det stray NM a (p, cnt) (e_idx e)) as [[q c]| | |] eqn:E1; cbn [obind] in E; try discriminate.
    exact (keeps_trans i _ _ _ (pade_element_keeps _ _ _ _ _ _ _ _ i _ HNM E1) (IH _ _ E)).
Qed.
Lemma nm_keeps det mem s nc nch v NM v' i : NM < W -> nm_step det mem s nc nch v NM = Ok v' -> keeps i (v_el v) (v_el v') /\ keeps i (v_bu v) (v_bu v').
Proof.
  intros HNM E. unfold nm_step in E. destruct (_ =? _) in E.
  - assert (v' = v) by congruence. subst v'. split; intros Hc; auto.
  - destruct (ofold _ _ _) as [n'| | |]; cbn [obind] in E; try discriminate.
    destruct (pade_order det (fst mem) NM (n_a n') (el_elts s) (v_el v, v_count v)) as [[el c]| | |] eqn:E1; cbn [obind] in E; try discriminate.
    destruct (pade_order det (snd mem) NM (n_abu n') (bu_elts s) (v_bu v, c)) as [[bu c']| | |] eqn:E2; cbn [obind] in E; try discriminate.
    assert (v' = mksolver n' el bu c') by congruence. subst v'. cbn [v_el v_bu]. split.
    + exact (pade_order_keeps _ _ _ _ _ _ _ _ _ i HNM E1).
    + exact (pade_order_keeps _ _ _ _ _ _ _ _ _ i HNM E2).
Qed.
Lemma nms_keeps det mem s nc nch l v v' i : (forall NM, In NM l -> NM < W) -> ofold (nm_step det mem s nc nch) l v = Ok v' -> keeps i (v_el v) (v_el v') /\ keeps i (v_bu v) (v_bu v').
Proof.
  revert v; induction l as [|NM l IH]; intros v Hl E.
  - cbn in E. assert (v' = v) by congruence. subst v'. split; intros Hc; auto.
  - cbn [ofold] in E. destruct (nm_step det mem s nc nch v NM) as [w| | |] eqn:E1; cbn [obind] in E; try discriminate.
    destruct (nm_keeps _ _ _ _ _ _ _ _ i (Hl NM (or_introl eq_refl)) E1) as [A1 A2]. destruct (IH w (fun x H => Hl x (or_intror H)) E) as [B1 B2].
    split; [ exact (keeps_trans i _ _ _ A1 B1) | exact (keeps_trans i _ _ _ A2 B2) ].
Qed.
(* after a break nothing changes *)
Lemma nms_broken det mem s nc nch l v : v_count v = s_nd s * s_nd s * s_nq s -> ofold (nm_step det mem s nc nch) l v = Ok v.
Proof.
  intros H. induction l as [|NM l IH]; [ reflexivity | ]. cbn [ofold]. unfold nm_step at 1. rewrite H, Nat.eqb_refl. cbn [obind]. exact IH.
Qed.

Lemma el_first s : 0 < s_nd s -> 0 < s_nq s -> exists e0 rest, el_elts s = e0 :: rest /\ e_idx e0 = 0.
Proof.
  intros H1 H2. unfold el_elts. destruct (s_nd s) as [|k] eqn:En; [ lia | ]. destruct (s_d s) as [|d0 ds] eqn:Ed; [ unfold s_nd in En; rewrite Ed in En; discriminate | ].
  destruct (s_q s) as [|q0 qs] eqn:Eq; [ unfold s_nq in H2; rewrite Eq in H2; cbn in H2; lia | ].
  unfold enum. cbn [seq length combine flat_map map app]. do 2 eexists. split; [ reflexivity | reflexivity ].
Qed.

(* ---------- the solver in a channel ---------- *)
Section Solve.
Variables (s : fsys) (tensor iso : bool) (Jm mx c : Z) (states : list pw) (V C : list R * list R).
Hypothesis Hsys : channel_system s tensor iso Jm mx c states V C.
Hypothesis HD : (1 <= zn (s_D s) <= 2 ^ 28)%Z.
Let A := kernel_matrix s tensor iso states V C.
Variable det : list cdouble -> nat -> cdouble.
Notation nE := (nEL s).
Notation nB := (nBU s).
Notation PAe := (PA det (coef_of s A)).

Lemma HG : length (s_G s) = s_nq s * s_D s.
Proof. pose proof (cs_in _ _ _ _ _ _ _ _ _ Hsys) as (_ & _ & _ & H & _). exact H. Qed.
Lemma Hq : forall q, In q (s_q s) -> q < s_Nq s.
Proof. pose proof (cs_in _ _ _ _ _ _ _ _ _ Hsys) as (_ & _ & _ & _ & H & _). exact H. Qed.
Lemma Hd : forall d, In d (s_d s) -> d < s_N s.
Proof. pose proof (cs_in _ _ _ _ _ _ _ _ _ Hsys) as (_ & _ & _ & _ & _ & H & _). exact H. Qed.
Lemma HNp : 0 < s_Np s.
Proof. pose proof (cs_in _ _ _ _ _ _ _ _ _ Hsys) as (H & _). exact H. Qed.
Let Hcol := link_col s tensor iso Jm mx c states V C Hsys.
Let Hrows := link_rows s tensor iso Jm mx c states V C Hsys.
Let Hends := link_ends s tensor iso Jm mx c states V C Hsys.
Let Hcells := link_cells s tensor iso Jm mx c states V C Hsys.
Definition gel := good_el s A HG Hcol Hends Hq Hd HNp.
Definition gbu := good_bu s A HG Hcol Hends Hq Hd HNp Hcells.

Definition ncn : nat := Z.to_nat (2 ^ 28 / zn (s_D s)).
Lemma ncn_pos : 0 < ncn.
Proof. destruct (chunking_ok _ HD) as [_ H]. unfold ncn. lia. Qed.
Lemma solve_eq mem U UBU : pade_method_solve det mem s U UBU =
  (do v <- pade_run det mem s ncn (s_D s / ncn + 1);
   do U <- report (v_el v) (el_elts s) U; do UBU <- report (v_bu v) (bu_elts s) UBU; Ok (U, UBU)).
Proof.
  unfold pade_method_solve. destruct (chunking_ok _ HD) as [E H]. rewrite E. cbn [obind]. fold ncn.
  replace (Z.to_nat (zn (s_D s) / (2 ^ 28 / zn (s_D s)) + 1)) with (s_D s / ncn + 1); [ reflexivity | ].
  unfold ncn. set (k := (2 ^ 28 / zn (s_D s))%Z) in *. rewrite Z2Nat.inj_add by (try apply Z.div_pos; lia). rewrite (Z2Nat.inj_div (zn (s_D s)) k) by lia. unfold zn. rewrite Nat2Z.id. reflexivity.
Qed.

(* the report, given the final state *)
Lemma elastic_ok f fb U UBU : s_breakup s = false -> length U = nE ->
  exists U', pade_method_solve det (Some f, Some fb) s U UBU = Ok (U', UBU) /\ length U' = nE /\
    forall e, In e (el_elts s) -> exists b, b <= NM_max /\ pade_approximant det (fun k => Ok (term s A k e)) b b c1 = Ok (nth (e_idx e) U' c0).
Proof.
  intros Hb LU. rewrite solve_eq.
  destruct (run_ok s A HG Hcol Hends Hrows Hq Hd HNp Hcells det f fb ncn ncn_pos) as (v & m & E & Hm & [K1 K2 K3 K4 K5 K6 K7] & Hor).
  rewrite E. cbn [obind]. destruct gel as [R1 J1].
  assert (Hall : forall e, In e (el_elts s) -> nth (e_idx e) (p_conv (v_el v)) false = true).
  { destruct Hor as [Hx|Hx]; [ apply K7; exact Hx | ]. intros e He. destruct K1 as (_ & _ & L3). destruct K2 as (_ & _ & L3').
    unfold nBU in L3'. rewrite Hb in L3'. pose proof (ct_le (p_conv (v_bu v))) as Hle. rewrite L3' in Hle.
    apply ct_all; [ rewrite L3; lia | ]. rewrite L3. apply R1; exact He. }
  destruct (report_ok s A HG Hcol Hends Hq Hd HNp det f fb nE (el_elts s) (v_el v) m U K1 K3 (fun e He => proj1 (R1 e He)) J1 Hall) as (U' & EU & LU' & HU' & _).
  { intros e He. rewrite LU. apply R1; exact He. }
  rewrite EU. cbn [obind]. exists U'. split; [ | split; [ congruence | ] ].
  - unfold bu_elts. rewrite Hb. reflexivity.
  - intros e He. destruct (HU' e He) as (b & B1 & B2). exists b. split; [ unfold W in B1; lia | ].
    rewrite (pade_reads det _ (coef_of s A e)) by reflexivity. rewrite B2. reflexivity.
Qed.

(* with breakup: the report succeeds exactly when everything has converged, and then reports computed approximants *)
Lemma breakup_ok f fb U UBU : length U = nE -> nB <= length UBU ->
  exists v, pade_run det (Some f, Some fb) s ncn (s_D s / ncn + 1) = Ok v /\
    ((forall e, In e (el_elts s) -> nth (e_idx e) (p_conv (v_el v)) false = true) ->
     (forall e, In e (bu_elts s) -> nth (e_idx e) (p_conv (v_bu v)) false = true) ->
     exists U' UBU', pade_method_solve det (Some f, Some fb) s U UBU = Ok (U', UBU') /\
       (forall e, In e (el_elts s) -> exists b, b <= NM_max /\ pade_approximant det (fun k => Ok (term s A k e)) b b c1 = Ok (nth (e_idx e) U' c0)) /\
       (forall e, In e (bu_elts s) -> exists b, b <= NM_max /\ pade_approximant det (fun k => Ok (term s A k e)) b b c1 = Ok (nth (e_idx e) UBU' c0))) /\
    ((exists e, In e (el_elts s) /\ nth (e_idx e) (p_conv (v_el v)) false = false) \/
     (exists e, In e (bu_elts s) /\ nth (e_idx e) (p_conv (v_bu v)) false = false) ->
     v_count v = nE /\ pade_method_solve det (Some f, Some fb) s U UBU = UB).
Proof.
  intros LU LB. destruct (run_ok s A HG Hcol Hends Hrows Hq Hd HNp Hcells det f fb ncn ncn_pos) as (v & m & E & Hm & [K1 K2 K3 K4 K5 K6 K7] & Hor).
  exists v. split; [ exact E | ]. destruct gel as [R1 J1]. destruct gbu as [R2 J2]. split.
  - intros H1 H2. rewrite solve_eq, E. cbn [obind].
    destruct (report_ok s A HG Hcol Hends Hq Hd HNp det f fb nE (el_elts s) (v_el v) m U K1 K3 (fun e He => proj1 (R1 e He)) J1 H1) as (U' & EU & LU' & HU' & _).
    { intros e He. rewrite LU. apply R1; exact He. }
    destruct (report_ok s A HG Hcol Hends Hq Hd HNp det f fb nB (bu_elts s) (v_bu v) m UBU K2 K4 (fun e He => proj1 (R2 e He)) J2 H2) as (UB' & EB & LB' & HB' & _).
    { intros e He. apply Nat.lt_le_trans with nB; [ apply R2; exact He | exact LB ]. }
    rewrite EU. cbn [obind]. rewrite EB. cbn [obind]. exists U', UB'. split; [ reflexivity | ]. split.
    + intros e He. destruct (HU' e He) as (b & B1 & B2). exists b. split; [ unfold W in B1; lia | ].
      rewrite (pade_reads det _ (coef_of s A e)) by reflexivity. rewrite B2. reflexivity.
    + intros e He. destruct (HB' e He) as (b & B1 & B2). exists b. split; [ unfold W in B1; lia | ].
      rewrite (pade_reads det _ (coef_of s A e)) by reflexivity. rewrite B2. reflexivity.
  - intros Hex. split.
    { destruct Hor as [Hx|Hx]; [ | exact Hx ]. exfalso. destruct (K7 Hx) as [X1 X2]. destruct Hex as [(e & He & Hf)|(e & He & Hf)].
      - rewrite (X1 e He) in Hf. discriminate.
      - rewrite (X2 e He) in Hf. discriminate. }
    rewrite solve_eq, E. cbn [obind].
    assert (Hnone : forall n l p (P : forall e, In e l -> elt_ok det (coef_of s A) m p e) e, lens n p -> e_idx e < n -> In e l -> nth (e_idx e) (p_conv p) false = false -> nth_error (p_best p) (e_idx e) = Some None).
    { intros n l p P e (L1 & L2 & L3) Hi He Hf. rewrite (nth_error_nth' _ None) by lia. destruct (proj1 (P e He) Hf) as [Hn _]. rewrite Hn. reflexivity. }
    destruct Hex as [(e & He & Hf)|(e & He & Hf)].
    + destruct (report_ub (v_el v) (el_elts s) U) as [(U' & EU)|EU]; [ | rewrite EU; reflexivity ].
      exfalso. destruct (report_inv _ _ _ _ EU) as [_ Hr]. destruct (Hr e He) as [_ [b Hbb]].
      rewrite (Hnone nE (el_elts s) (v_el v) K3 e K1 (proj1 (R1 e He)) He Hf) in Hbb. discriminate.
    + destruct (report_ub (v_el v) (el_elts s) U) as [(U' & EU)|EU]; [ | rewrite EU; reflexivity ]. rewrite EU. cbn [obind].
      destruct (report_ub (v_bu v) (bu_elts s) UBU) as [(U2 & EU2)|EU2]; [ | rewrite EU2; reflexivity ].
      exfalso. destruct (report_inv _ _ _ _ EU2) as [_ Hr]. destruct (Hr e He) as [_ [b Hbb]].
      rewrite (Hnone nB (bu_elts s) (v_bu v) K4 e K2 (proj1 (R2 e He)) He Hf) in Hbb. discriminate.
Qed.

(* main.cpp l.418 allocates num_T_lab * num_BU_chns amplitudes *)
Lemma small_array f fb U UBU : s_breakup s = true -> s_nq s < s_nd s -> (exists e, In e (bu_elts s)) -> length UBU = s_nq s * s_nBU s ->
  pade_method_solve det (Some f, Some fb) s U UBU = UB.
Proof.
  intros Hb Hlt [e0 He0] LB. rewrite solve_eq.
  destruct (run_ok s A HG Hcol Hends Hrows Hq Hd HNp Hcells det f fb ncn ncn_pos) as (v & m & E & _). rewrite E. cbn [obind].
  destruct (report_ub (v_el v) (el_elts s) U) as [(U' & EU)|EU]; [ | rewrite EU; reflexivity ]. rewrite EU. cbn [obind].
  destruct (report_ub (v_bu v) (bu_elts s) UBU) as [(U2 & EU2)|EU2]; [ | rewrite EU2; reflexivity ].
  exfalso. destruct (report_inv _ _ _ _ EU2) as [_ Hr].
  apply (in_bu s A HG Hcol Hends Hq Hd HNp Hcells) in He0. destruct He0 as (_ & dr & q & b & H1 & H2 & H3 & _).
  assert (He : In (mkelt ((s_nd s - 1) * s_nBU s + b) ((s_nd s - 1) * s_nq s + q) (idx3 (s_Nq s) (s_Np s) (nth b (s_cells s) (0, 0, 0)))) (bu_elts s)).
  { apply (in_bu s A HG Hcol Hends Hq Hd HNp Hcells). split; [ exact Hb | ]. exists (s_nd s - 1), q, b. split; [ lia | ]. auto. }
  destruct (Hr _ He) as [Hx _]. cbn [e_idx] in Hx. rewrite LB in Hx. nia.
Qed.


(* the language's view: element 0 of the first order already reads before the beginning of the array *)
Lemma strict_ub sb U UBU : 0 < s_nd s -> 0 < s_nq s -> pade_method_solve det (None, sb) s U UBU = UB.
Proof.
  intros H1 H2. rewrite solve_eq. unfold pade_run.
  destruct (init_ok s A HG Hcol Hends Hrows Hq Hd HNp Hcells (repeat false nE) (repeat false nB)) as (n0 & E0 & I0). rewrite E0. cbn [obind].
  destruct (el_first s H1 H2) as (e0 & rest & Hel & Hi0).
  assert (He0 : In e0 (el_elts s)) by (rewrite Hel; left; reflexivity).
  cbn [seq plus NM_max ofold]. 
  assert (Hn : nm_step det (None, sb) s ncn (s_D s / ncn + 1)
     (mksolver n0 (fresh_pst (s_nd s * s_nd s * s_nq s)) (fresh_pst (if s_breakup s then s_nd s * s_nBU s else 0)) 0) 0 = UB).
  { unfold nm_step. cbn [v_count v_n v_el v_bu]. replace (0 =? s_nd s * s_nd s * s_nq s) with false by (symmetry; apply Nat.eqb_neq; nia).
    cbn [ns Nat.eqb ofold obind fst snd]. unfold pade_order. rewrite Hel. cbn [ofold].
    assert (Hx : pade_element det None 0 (n_a n0) (fresh_pst (s_nd s * s_nd s * s_nq s), 0) (e_idx e0) = UB).
    { rewrite Hi0. unfold pade_element. cbn [fst snd fresh_pst p_conv p_pa p_best].
      assert (Hpos : 0 < s_nd s * s_nd s * s_nq s) by nia.
      rewrite (aread_nth _ _ false) by (rewrite repeat_length; exact Hpos). cbn [obind].
      assert (Hf : nth 0 (repeat false (s_nd s * s_nd s * s_nq s)) false = false) by (destruct (s_nd s * s_nd s * s_nq s); reflexivity). rewrite Hf.
      assert (Hr : aread (n_a n0) (0 * num_terms + 0) = Ok (term s A 0 e0)).
      { rewrite (aread_nth _ _ c0) by (rewrite (i_la _ _ _ _ _ _ I0); unfold nEL, num_terms; nia). f_equal.
        rewrite <- Hi0. apply (i_a _ _ _ _ _ _ I0); [ exact He0 | | lia ]. rewrite Hi0. unfold nEL. exact Hf. }
      rewrite (pade_reads det _ (fun _ => term s A 0 e0)). 2:{ intros k Hk. assert (k = 0) by lia. subst k. exact Hr. }
      cbn [obind].
      destruct (nth_awrite (repeat c0 (s_nd s * s_nd s * s_nq s * (NM_max + 1))) (0 * (NM_max + 1) + 0) (pade_val det (fun _ => term s A 0 e0) 0 c1) c0) as (pa & Ep & Lp & _).
      { rewrite repeat_length. unfold NM_max. nia. }
      rewrite Ep. cbn [obind]. cbn [seq plus ofold]. unfold best_step at 1.
      rewrite (aread_nth _ _ c0) by (rewrite Lp, repeat_length; unfold NM_max; nia). reflexivity. }
    rewrite Hx. reflexivity. }
  rewrite Hn. reflexivity.
Qed.

(* ---------- the first orders in detail ---------- *)
Definition start (n0 : nst) : solver := mksolver n0 (fresh_pst nE) (fresh_pst nB) 0.
Definition y0 (x : cdouble) (e : elt) : cdouble := match e_idx e with O => x | S _ => c0 end.
Definition dec0 (x : cdouble) (e : elt) : bool := conv_val det (coef_of s A) 0 e (best_val det (coef_of s A) 0 e (y0 x e)).
Lemma before_fresh f n e : before f 0 (fresh_pst n) e = y0 (f 0) e.
Proof. unfold before, y0. destruct (e_idx e); [ reflexivity | ]. cbn [fresh_pst p_pa]. apply nth_repeat. Qed.
Lemma order0 f fb n0 : neumann_init s = Ok n0 -> 0 < nE ->
  exists v1, nm_step det (Some f, Some fb) s ncn (s_D s / ncn + 1) (start n0) 0 = Ok v1 /\ good_state s A det 1 v1 /\
    (forall e, In e (el_elts s) -> nth (e_idx e) (p_conv (v_el v1)) false = dec0 (f 0) e /\
       (dec0 (f 0) e = true -> nth (e_idx e) (p_best (v_el v1)) None = Some 0 /\ nth (e_idx e * W + 0) (p_pa (v_el v1)) c0 = PAe e 0)) /\
    (forall e, In e (bu_elts s) -> nth (e_idx e) (p_conv (v_bu v1)) false = dec0 (fb 0) e) /\
    v_count v1 = length (filter (dec0 (f 0)) (el_elts s)) + length (filter (dec0 (fb 0)) (bu_elts s)).
Proof.
  intros E0 Hpos. destruct (init_ok s A HG Hcol Hends Hrows Hq Hd HNp Hcells (repeat false nE) (repeat false nB)) as (n0' & E0' & I0).
  assert (n0' = n0) by congruence. subst n0'.
  assert (Gs : good_state s A det 0 (start n0)) by (apply (fresh_ok s A HG Hcol Hends Hq Hd HNp det f fb); exact I0).
  destruct (nm_ok s A HG Hcol Hends Hq Hd HNp Hcells det f fb ncn 0 (start n0) ncn_pos ltac:(unfold W; lia) Gs ltac:(cbn [start v_count]; lia)) as (v1 & E1 & Gs1).
  exists v1. split; [ exact E1 | ]. split; [ exact Gs1 | ].
  unfold nm_step in E1. cbn [start v_count v_n v_el v_bu] in E1.
  replace (0 =? s_nd s * s_nd s * s_nq s) with false in E1 by (symmetry; apply Nat.eqb_neq; unfold nEL in Hpos; lia).
  cbn [ns Nat.eqb ofold obind fst snd] in E1.
  destruct gel as [R1 J1]. destruct gbu as [R2 J2].
  assert (Hff : forall n i, nth i (p_conv (fresh_pst n)) false = false) by (intros n i; cbn [fresh_pst p_conv]; apply nth_repeat).
  destruct (pade_order_val det f (coef_of s A) nE (el_elts s) (fun e He => proj1 (R1 e He)) J1 0 (n_a n0) (fresh_pst nE) 0
     (g_lel _ _ _ _ _ Gs) ltac:(unfold NM_max; lia) (NoDup_el s A HG Hcol Hends Hq Hd HNp det f fb)) as (el & cnt & E2 & L2 & O2 & H2 & C2).
  { intros; lia. }
  { intros e He Hf k Hk. split; [ | apply (i_a _ _ _ _ _ _ I0); [ exact He | exact Hf | lia ] ].
    rewrite (i_la _ _ _ _ _ _ I0). apply rm_lt; [ apply R1; exact He | unfold num_terms; lia ]. }
  rewrite E2 in E1. cbn [obind] in E1.
  destruct (pade_order_val det fb (coef_of s A) nB (bu_elts s) (fun e He => proj1 (R2 e He)) J2 0 (n_abu n0) (fresh_pst nB) cnt
     (g_lbu _ _ _ _ _ Gs) ltac:(unfold NM_max; lia) (NoDup_bu s A HG Hcol Hends Hq Hd HNp Hcells det f fb)) as (bu & cnt' & E3 & L3 & O3 & H3 & C3).
  { intros; lia. }
  { intros e He Hf k Hk. split; [ | apply (i_abu _ _ _ _ _ _ I0); [ exact He | exact Hf | lia ] ].
    rewrite (i_lbu _ _ _ _ _ _ I0). apply rm_lt; [ apply R2; exact He | unfold num_terms; lia ]. }
  rewrite E3 in E1. cbn [obind] in E1. assert (v1 = mksolver n0 el bu cnt') by congruence. subst v1. cbn [v_el v_bu v_count].
  split; [ | split ].
  - intros e He. destruct (H2 e He) as [X1 X2]. rewrite Hff in X1. cbn [orb] in X1. rewrite before_fresh in X1, X2. fold (dec0 (f 0) e) in X1, X2.
    split; [ exact X1 | ]. intros Hdec. destruct (X2 (Hff _ _)) as [Y1 Y2]. rewrite Hdec in Y2. split; [ | exact Y1 ].
    rewrite Y2. f_equal. unfold best_val. cbn [plus seq fold_left fst]. destruct (_ && _); reflexivity.
  - intros e He. destruct (H3 e He) as [X1 X2]. rewrite Hff in X1. cbn [orb] in X1. rewrite before_fresh in X1. exact X1.
  - rewrite C3, C2. cbn [plus]. f_equal; f_equal; apply filter_ext; intros e; rewrite Hff, before_fresh; reflexivity.
Qed.

(* early end: the number of converged amplitudes of both kinds equals the number of elastic ones *)
Lemma early_break f fb U UBU : 0 < nE ->
  length (filter (dec0 (f 0)) (el_elts s)) + length (filter (dec0 (fb 0)) (bu_elts s)) = nE ->
  (exists e, In e (el_elts s) /\ dec0 (f 0) e = false) ->
  pade_method_solve det (Some f, Some fb) s U UBU = UB.
Proof.
  intros Hpos Hc (e & He & Hf). rewrite solve_eq. unfold pade_run.
  destruct (init_ok s A HG Hcol Hends Hrows Hq Hd HNp Hcells (repeat false nE) (repeat false nB)) as (n0 & E0 & I0). rewrite E0. cbn [obind].
  destruct (order0 f fb n0 E0 Hpos) as (v1 & E1 & Gs1 & H1 & _ & C1). unfold start in E1.
  change (s_nd s * s_nd s * s_nq s) with nE. change (if s_breakup s then s_nd s * s_nBU s else 0) with nB.
  change (seq 0 (NM_max + 1)) with (0 :: seq 1 NM_max). cbn [ofold]. rewrite E1. cbn [obind].
  rewrite nms_broken by (rewrite C1; exact Hc). cbn [obind].
  destruct (report_ub (v_el v1) (el_elts s) U) as [(U' & EU)|EU]; [ | rewrite EU; reflexivity ].
  exfalso. destruct (report_inv _ _ _ _ EU) as [_ Hr]. destruct (Hr e He) as [_ [b Hbb]].
  destruct (g_el _ _ _ _ _ Gs1 e He) as [Q1 _]. destruct (H1 e He) as [X1 _]. rewrite Hf in X1. destruct (Q1 X1) as [Q2 _].
  apply nth_error_nth with (d := None) in Hbb. congruence.
Qed.
End Solve.
