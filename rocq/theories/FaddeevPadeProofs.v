(* Pade bookkeeping: every order, every element; the whole solver. *)
From Coq Require Import Reals Lra ZifyBool.
From Verif Require Import Common ArrayLib PWModel SwpModel SwpProofs ResolventModel GridSpec PotentialSpec
  KernelModel KernelSpec FaddeevModel FaddeevSpec FaddeevProofs FaddeevStepProofs FaddeevLink.
Open Scope nat_scope.

Lemma aread_nth {X} (a : list X) i d : i < length a -> aread a i = Ok (nth i a d).
Proof. intros H. destruct (aread_ok a i H) as (v & E & N). rewrite E. rewrite (nth_error_nth _ _ d N). reflexivity. Qed.

(* ---------- pade_approximant ---------- *)
Lemma omap_ok {X Y} (f : X -> outcome Y) (g : X -> Y) l : (forall x, In x l -> f x = Ok (g x)) -> omap f l = Ok (map g l).
Proof.
  induction l as [|x l IH]; intros H; [ reflexivity | ]. cbn [omap map]. rewrite H by (left; reflexivity). cbn [obind].
  rewrite IH by (intros y Hy; apply H; right; exact Hy). reflexivity.
Qed.
Definition pade_val (det : list cdouble -> nat -> cdouble) (a : nat -> cdouble) (M : nat) (z : cdouble) : cdouble :=
  let top := map (fun rc => a (M - M + 1 + fst rc + snd rc)) (nest M (M + 1)) in
  let lastP := map (fun c => fold_left (fun acc j => cadd acc (cmul (a (j - (M - c))) (cpow z j))) (seq (M - c) (M + 1 - (M - c))) c0) (seq 0 (M + 1)) in
  let lastQ := map (fun c => cpow z (M - c)) (seq 0 (M + 1)) in
  cdiv (det (top ++ lastP) (M + 1)) (det (top ++ lastQ) (M + 1)).
Lemma ofold_pure {S X} (f : S -> X -> outcome S) (g : S -> X -> S) l s : (forall x s, In x l -> f s x = Ok (g s x)) -> ofold f l s = Ok (fold_left g l s).
Proof.
  revert s; induction l as [|x l IH]; intros s H; [ reflexivity | ]. cbn [ofold fold_left]. rewrite H by (left; reflexivity). cbn [obind].
  apply IH. intros y t Hy. apply H. right; exact Hy.
Qed.
(* only the coefficients 0 .. 2M are used *)
Lemma pade_reads det a a' M z : (forall k, k <= 2 * M -> a k = Ok (a' k)) -> pade_approximant det a M M z = Ok (pade_val det a' M z).
Proof.
  intros H. unfold pade_approximant, pade_val.
  rewrite (omap_ok _ (fun rc => a' (M - M + 1 + fst rc + snd rc))).
  2:{ intros [r c] Hin. apply in_nest in Hin. cbn [fst snd]. apply H. lia. }
  cbn [obind].
  rewrite (omap_ok _ (fun c => fold_left (fun acc j => cadd acc (cmul (a' (j - (M - c))) (cpow z j))) (seq (M - c) (M + 1 - (M - c))) c0)).
  - reflexivity.
  - intros c Hc. apply in_seq in Hc. apply ofold_pure. intros j acc Hj. apply in_seq in Hj. rewrite H by lia. reflexivity.
Qed.

(* ---------- counting flags ---------- *)
Definition ct (l : list bool) : nat := length (filter (fun b => b) l).
Lemma ct_le l : ct l <= length l.
Proof. unfold ct. induction l as [|[] l IH]; cbn; lia. Qed.
Lemma ct_all l : ct l = length l -> forall i, i < length l -> nth i l false = true.
Proof.
  induction l as [|b l IH]; intros H i Hi; [ cbn in Hi; lia | ]. pose proof (ct_le l). unfold ct in *. destruct b; cbn in *; [ | lia ].
  destruct i; [ reflexivity | ]. apply IH; lia.
Qed.
Lemma ct_write l i l' : awrite l i true = Ok l' -> nth i l false = false -> ct l' = S (ct l).
Proof.
  intros E Hf. assert (Hi : i < length l).
  { destruct (Nat.lt_ge_cases i (length l)) as [|Hge]; [ assumption | ]. unfold awrite in E. replace (i <? length l) with false in E by lia. discriminate. }
  unfold awrite in E. replace (i <? length l) with true in E by lia. injection E as <-.
  revert i Hf Hi; induction l as [|b l IH]; intros i Hf Hi; [ cbn in Hi; lia | ]. destruct i; cbn in Hf.
  - subst b. cbn. reflexivity.
  - cbn in Hi. specialize (IH i Hf ltac:(lia)). unfold ct in *. cbn. destruct b; cbn; rewrite IH; reflexivity.
Qed.

(* ---------- one element at one order ---------- *)
Section Order.
Variables (det : list cdouble -> nat -> cdouble) (f : nat -> cdouble).
Variable coef : elt -> nat -> cdouble.               (* the coefficients of each element *)
Variables (n : nat) (l : list elt).
Hypothesis Hlt : forall e, In e l -> e_idx e < n.
Hypothesis Hinj : forall e e', In e l -> In e' l -> e_idx e = e_idx e' -> e = e'.
Definition W := NM_max + 1.
Definition PA (e : elt) (M : nat) : cdouble := pade_val det (coef e) M c1.

Definition lens (p : pst) : Prop := length (p_pa p) = n * W /\ length (p_best p) = n /\ length (p_conv p) = n.
Definition elt_ok (NM : nat) (p : pst) (e : elt) : Prop :=
  (nth (e_idx e) (p_conv p) false = false -> nth (e_idx e) (p_best p) None = None /\ forall k, k < NM -> nth (e_idx e * W + k) (p_pa p) c0 = PA e k) /\
  (nth (e_idx e) (p_conv p) false = true -> exists b, b < W /\ nth (e_idx e) (p_best p) None = Some b /\ nth (e_idx e * W + b) (p_pa p) c0 = PA e b).

Lemma best_ok NM e pa : In e l -> length pa = n * W -> NM < W ->
  exists bm, ofold (best_step (Some f) NM pa (e_idx e)) (seq 0 (NM + 1)) (0, 1%R) = Ok bm /\ fst bm <= NM.
Proof.
  intros He Lp HNM. specialize (Hlt e He).
  assert (G : forall m, m <= NM + 1 -> exists bm, ofold (best_step (Some f) NM pa (e_idx e)) (seq 0 m) (0, 1%R) = Ok bm /\ fst bm <= NM).
  { induction m as [|m IH]; intros Hm; [ exists (0, 1%R); split; [ reflexivity | cbn; lia ] | ].
    destruct (IH ltac:(lia)) as (bm & E & Hb). rewrite seq_S, ofold_app, E. cbn [obind ofold plus]. unfold best_step at 1. fold W.
    assert (B : e_idx e * W + m < n * W) by (apply rm_lt; [ exact Hlt | lia ]).
    rewrite (aread_nth _ _ c0) by lia. cbn [obind]. unfold pread_before. fold W.
    destruct (e_idx e * W + m) as [|m'] eqn:Em.
    - cbn [obind]. destruct (_ && _); eexists; (split; [ reflexivity | ]); cbn [fst]; lia.
    - rewrite (aread_nth _ _ c0) by lia. cbn [obind]. destruct (_ && _); eexists; (split; [ reflexivity | ]); cbn [fst]; lia. }
  apply G. lia.
Qed.

Lemma pade_element_ok NM a p cnt e : In e l -> lens p -> NM < W -> elt_ok NM p e ->
  (nth (e_idx e) (p_conv p) false = false -> forall k, k <= 2 * NM -> e_idx e * num_terms + k < length a /\ nth (e_idx e * num_terms + k) a c0 = coef e k) ->
  exists p' cnt', pade_element det (Some f) NM a (p, cnt) (e_idx e) = Ok (p', cnt') /\ lens p' /\ elt_ok (S NM) p' e /\
    (forall i, nth i (p_conv p) false = true -> nth i (p_conv p') false = true) /\
    (NM = NM_max -> nth (e_idx e) (p_conv p') false = true) /\
    cnt' + ct (p_conv p) = cnt + ct (p_conv p') /\
    (forall e', In e' l -> e_idx e' <> e_idx e -> nth (e_idx e') (p_conv p') false = nth (e_idx e') (p_conv p) false /\
        nth (e_idx e') (p_best p') None = nth (e_idx e') (p_best p) None /\
        forall k, k < W -> nth (e_idx e' * W + k) (p_pa p') c0 = nth (e_idx e' * W + k) (p_pa p) c0).
Proof.
  intros He (L1 & L2 & L3) HNM [Q1 Q2] Ha. pose proof (Hlt e He) as Hi. unfold pade_element. cbn [fst snd].
  rewrite (aread_nth _ _ false) by lia. cbn [obind]. destruct (nth (e_idx e) (p_conv p) false) eqn:Ec.
  - exists p, cnt. split; [ reflexivity | ]. split; [ split; auto | ]. split.
    { split; [ intros H; rewrite Ec in H; discriminate | intros _; apply Q2; reflexivity ]. }
    split; [ auto | ]. split; [ auto | ]. split; [ reflexivity | auto ].
  - specialize (Ha eq_refl). destruct (Q1 eq_refl) as [Q0 Q1']. clear Q1. rename Q1' into Q1.
    rewrite (pade_reads det _ (coef e)) by (intros k Hk; destruct (Ha k Hk) as [B E]; rewrite (aread_nth _ _ c0 B), E; reflexivity).
    cbn [obind]. change (pade_val det (coef e) NM c1) with (PA e NM).
    assert (B : e_idx e * W + NM < n * W) by (apply rm_lt; [ exact Hi | exact HNM ]).
    destruct (nth_awrite (p_pa p) (e_idx e * W + NM) (PA e NM) c0 ltac:(lia)) as (pa & E1 & Lp & W1 & O1). fold W. rewrite E1. cbn [obind].
    destruct (best_ok NM e pa He ltac:(congruence) HNM) as (bm & E2 & Hbm). rewrite E2. cbn [obind].
    assert (B2 : e_idx e * W + fst bm < n * W) by (apply rm_lt; [ exact Hi | lia ]).
    rewrite (aread_nth _ _ c0) by lia. cbn [obind].
    assert (Hcells : forall k, k < S NM -> nth (e_idx e * W + k) pa c0 = PA e k).
    { intros k Hk. destruct (Nat.eq_dec k NM) as [->|Hne]; [ exact W1 | ]. rewrite O1 by lia. apply Q1. lia. }
    assert (Hframe : forall e', In e' l -> e_idx e' <> e_idx e -> forall k, k < W -> nth (e_idx e' * W + k) pa c0 = nth (e_idx e' * W + k) (p_pa p) c0).
    { intros e' He' Hne k Hk. apply O1. intros Heq. apply Hne. apply rm_inj in Heq; [ tauto | exact Hk | exact HNM ]. }
    match goal with |- context [if ?b then _ else _] => destruct b eqn:Ecrit end.
    + destruct (nth_awrite (p_conv p) (e_idx e) true false ltac:(lia)) as (cv & E3 & L3' & W3 & O3). rewrite E3. cbn [obind].
      destruct (nth_awrite (p_best p) (e_idx e) (Some (fst bm)) None ltac:(lia)) as (bs & E4 & L4 & W4 & O4). rewrite E4. cbn [obind].
      do 2 eexists. split; [ reflexivity | ]. unfold lens, elt_ok. cbn [p_pa p_best p_conv]. split; [ repeat split; congruence | ]. split.
      { rewrite W3. split; [ discriminate | ]. intros _. exists (fst bm). split; [ lia | ]. split; [ exact W4 | ]. apply Hcells. lia. }
      split; [ intros i Hti; destruct (Nat.eq_dec i (e_idx e)) as [->|Hne]; [ exact W3 | rewrite O3 by exact Hne; exact Hti ] | ].
      split; [ intros _; exact W3 | ]. split; [ rewrite (ct_write _ _ _ E3 Ec); lia | ].
      intros e' He' Hne. split; [ apply O3; exact Hne | ]. split; [ apply O4; exact Hne | ]. apply Hframe; assumption.
    + do 2 eexists. split; [ reflexivity | ]. unfold lens, elt_ok. cbn [p_pa p_best p_conv]. split; [ repeat split; congruence | ]. split.
      { rewrite Ec. split; [ intros _; split; [ exact Q0 | exact Hcells ] | discriminate ]. }
      split; [ auto | ]. split.
      { intros ->. rewrite Nat.eqb_refl in Ecrit. discriminate. }
      split; [ reflexivity | ]. intros e' He' Hne. split; [ reflexivity | ]. split; [ reflexivity | ]. apply Hframe; assumption.
Qed.

Lemma pade_order_ok NM a p cnt : lens p -> NM < W -> (forall e, In e l -> elt_ok NM p e) -> NoDup l ->
  (forall e, In e l -> nth (e_idx e) (p_conv p) false = false -> forall k, k <= 2 * NM -> e_idx e * num_terms + k < length a /\ nth (e_idx e * num_terms + k) a c0 = coef e k) ->
  exists p' cnt', pade_order det (Some f) NM a l (p, cnt) = Ok (p', cnt') /\ lens p' /\ (forall e, In e l -> elt_ok (S NM) p' e) /\
    (forall i, nth i (p_conv p) false = true -> nth i (p_conv p') false = true) /\
    (NM = NM_max -> forall e, In e l -> nth (e_idx e) (p_conv p') false = true) /\
    cnt' + ct (p_conv p) = cnt + ct (p_conv p').
Proof.
  intros HL HNM HQ Hnd Ha. unfold pade_order.
  destruct (ofold_inv (fun dn (st : pst * nat) => lens (fst st) /\ (forall e, In e dn -> elt_ok (S NM) (fst st) e) /\
      (forall e, In e l -> ~ In e dn -> elt_ok NM (fst st) e /\ nth (e_idx e) (p_conv (fst st)) false = nth (e_idx e) (p_conv p) false) /\
      (forall i, nth i (p_conv p) false = true -> nth i (p_conv (fst st)) false = true) /\
      (NM = NM_max -> forall e, In e dn -> nth (e_idx e) (p_conv (fst st)) false = true) /\
      snd st + ct (p_conv p) = cnt + ct (p_conv (fst st)))
    (fun st e => pade_element det (Some f) NM a st (e_idx e)) l (p, cnt)) as ([p' cnt'] & E & H).
  - cbn [fst snd]. split; [ exact HL | ]. split; [ intros e [] | ]. split; [ intros e He _; split; [ apply HQ; exact He | reflexivity ] | ].
    split; [ auto | ]. split; [ intros _ e [] | reflexivity ].
  - intros dn e rest [q c] Hl (K1 & K2 & K3 & K4 & K5 & K6). cbn [fst snd] in *.
    assert (He : In e l) by (rewrite Hl; apply in_or_app; right; left; reflexivity).
    assert (Hni : ~ In e dn). { intros Hin. rewrite Hl in Hnd. apply NoDup_remove_2 in Hnd. apply Hnd. apply in_or_app. left; exact Hin. }
    destruct (K3 e He Hni) as [Qe Ce].
    destruct (pade_element_ok NM a q c e He K1 HNM Qe) as (q' & c' & E & L' & Q' & G' & M' & C' & F').
    { intros Hf. apply Ha; [ exact He | ]. rewrite <- Ce. exact Hf. }
    exists (q', c'). split; [ exact E | ]. cbn [fst snd]. split; [ exact L' | ].
    assert (Hcase : forall e', In e' l -> e' <> e -> e_idx e' <> e_idx e) by (intros e' He' Hne Heq; apply Hne, Hinj; assumption).
    assert (Hkeep : forall m e', m <= W -> In e' l -> e' <> e -> elt_ok m q e' -> elt_ok m q' e').
    { intros m e' Hm He' Hne [X1 X2]. destruct (F' e' He' (Hcase e' He' Hne)) as (F1 & F2 & F3). unfold elt_ok. rewrite F1, F2. split.
      - intros Hf. destruct (X1 Hf) as [Y1 Y2]. split; [ exact Y1 | ]. intros k Hk. rewrite F3 by lia. apply Y2; assumption.
      - intros Ht. destruct (X2 Ht) as (b & B1 & B2 & B3). exists b. split; [ exact B1 | ]. split; [ exact B2 | ]. rewrite F3 by exact B1. exact B3. }
    assert (Hdn : forall e', In e' dn -> In e' l /\ e' <> e).
    { intros e' He'. split; [ rewrite Hl; apply in_or_app; left; exact He' | intros ->; contradiction ]. }
    split; [ | split; [ | split; [ | split ] ] ].
    + intros e' He'. apply in_app_or in He'. destruct He' as [He'|[<-|[]]]; [ | exact Q' ]. destruct (Hdn e' He'). apply Hkeep; try assumption. apply K2; exact He'.
    + intros e' He' Hni'. assert (e' <> e) by (intros ->; apply Hni'; apply in_or_app; right; left; reflexivity).
      assert (~ In e' dn) by (intros Hx; apply Hni'; apply in_or_app; left; exact Hx).
      destruct (K3 e' He' H0) as [X1 X2]. split; [ apply Hkeep; try assumption; lia | ]. destruct (F' e' He' (Hcase e' He' H)) as (F1 & _). rewrite F1. exact X2.
    + intros i Hti. apply G', K4, Hti.
    + intros Hmx e' He'. apply in_app_or in He'. destruct He' as [He'|[<-|[]]]; [ apply G', K5; assumption | apply M'; exact Hmx ].
    + lia.
  - exists p', cnt'. cbn [fst snd] in H. tauto.
Qed.
End Order.

(* ---------- the loop over the orders ---------- *)
Section Run.
Variables (s : fsys) (A : nat -> nat -> R).
Let D := s_D s.
Let nd := s_nd s.
Let nq := s_nq s.
Hypothesis HG : length (s_G s) = nq * D.
Hypothesis Hcol : forall j, j < D -> exists col, kernel_col s j (repeat 0%R D) = Ok col /\ length col = D /\
  forall i, i < D -> nth i col 0%R = A i j.
Hypothesis Hends : s_breakup s = true -> (forall q, q < nq -> nth q (s_ends s) 0 <= nth (q + 1) (s_ends s) 0) /\ nth nq (s_ends s) 0 <= s_nBU s.
Hypothesis Hrows : forall z, length z = nd * nq * D -> exists rows, CPVC_rows (s_N s) (s_Nq s) (s_Np s) (s_CT s) (s_VC s) (s_P s) (s_d s) (s_q s) z = Ok rows /\
  length rows = length z /\ forall r k, r < nd * nq -> k < D -> nth (r * D + k) rows 0%R = A (row_state s r) k.
Hypothesis Hq : forall q, In q (s_q s) -> q < s_Nq s.
Hypothesis Hd : forall d, In d (s_d s) -> d < s_N s.
Hypothesis HNp : 0 < s_Np s.
Hypothesis Hcells : s_breakup s = true -> forall x, In x (s_cells s) -> valid3 (s_N s) (s_Nq s) (s_Np s) x.
Variables (det : list cdouble -> nat -> cdouble) (f fb : nat -> cdouble).
Definition coef_of (e : elt) (k : nat) : cdouble := term s A k e.

Lemma NoDup_el : NoDup (el_elts s).
Proof.
  unfold el_elts. assert (Hq2 : forall X (l : list X), NoDup (enum l)).
  { intros X l0. unfold enum. assert (G : forall n, NoDup (combine (seq n (length l0)) l0)); [ | apply G ].
    induction l0 as [|x l0 IH]; intros n; [ constructor | ]. cbn [length seq combine]. constructor; [ | apply IH ].
    intros Hin. apply in_combine_l in Hin. apply in_seq in Hin. lia. }
  apply NoDup_flat_map; [ apply seq_NoDup | | ].
  - intros dr _. apply NoDup_flat_map; [ apply Hq2 | | ].
    + intros [dc dv] Hdc.
      assert (G : forall l : list (nat * nat), (forall k x y, In (k, x) l -> In (k, y) l -> x = y) -> NoDup l -> NoDup (map (fun q : nat * nat => mkelt (dr * s_nd s * s_nq s + fst (dc, dv) * s_nq s + fst q) (dr * s_nq s + fst q) (snd (dc, dv) * s_Nq s * s_Np s + snd q * s_Np s + 0)) l)).
      { induction l as [|[k x] l IH]; intros Hf Hn; [ constructor | ]. inversion Hn as [|? ? Hni Hn']; subst. cbn [map]. constructor.
        - intros Hin. apply in_map_iff in Hin. destruct Hin as ([k' x'] & E & Hin). cbn [fst snd] in E. injection E as E1 E2 E3. assert (k' = k) by lia. subst k'.
          assert (x' = x) by (apply (Hf k); [ right; exact Hin | left; reflexivity ]). subst x'. contradiction.
        - apply IH; [ | exact Hn' ]. intros k' x' y' H1 H2. apply (Hf k'); right; assumption. }
      apply G; [ | apply Hq2 ]. intros k x y H1 H2. apply in_enum in H1, H2. congruence.
    + intros [dc dv] [dc' dv'] e H1 H2 H3 H4. apply in_map_iff in H3, H4. destruct H3 as ([q qv] & <- & H3), H4 as ([q' qv'] & E & H4). cbn [fst snd] in E.
      injection E as E1 E2 E3. apply in_enum in H1, H2, H3, H4.
      assert (q' < s_nq s) by (apply nth_error_Some; congruence). assert (q < s_nq s) by (apply nth_error_Some; congruence).
      assert (q' = q) by lia. subst q'. assert (dc' * s_nq s = dc * s_nq s) by lia. assert (dc' = dc) by nia. subst dc'. congruence.
  - intros dr dr' e _ _ H3 H4. apply in_flat_map in H3, H4. destruct H3 as ([dc dv] & _ & H3), H4 as ([dc' dv'] & _ & H4).
    apply in_map_iff in H3, H4. destruct H3 as ([q qv] & <- & H3), H4 as ([q' qv'] & E & H4). cbn [fst snd] in E.
    injection E as E1 E2 E3. apply in_enum in H3, H4.
    assert (q' < s_nq s) by (apply nth_error_Some; congruence). assert (q < s_nq s) by (apply nth_error_Some; congruence).
    apply rm_inj in E2; [ | assumption.. ]. symmetry. tauto.
Qed.
Lemma NoDup_bu : NoDup (bu_elts s).
Proof.
  unfold bu_elts. destruct (Bool.bool_dec (s_breakup s) true) as [Eb|Eb].
  2:{ rewrite (Bool.not_true_is_false _ Eb). constructor. }
  rewrite Eb. destruct (good_bu s A HG Hcol Hends Hq Hd HNp Hcells) as [Hr Hi].
  assert (Hrow : forall q dr b, q < s_nq s -> dr < s_nd s ->
     e_row (let '(al, qi, pi) := nth b (s_cells s) (0, 0, 0) in mkelt (dr * s_nBU s + b) (dr * s_nq s + q) (al * s_Nq s * s_Np s + qi * s_Np s + pi)) = dr * s_nq s + q).
  { intros q dr b _ _. destruct (nth b (s_cells s) (0, 0, 0)) as [[al qi] pi]. reflexivity. }
  assert (Hidx : forall q dr b, 
     e_idx (let '(al, qi, pi) := nth b (s_cells s) (0, 0, 0) in mkelt (dr * s_nBU s + b) (dr * s_nq s + q) (al * s_Nq s * s_Np s + qi * s_Np s + pi)) = dr * s_nBU s + b).
  { intros q dr b. destruct (nth b (s_cells s) (0, 0, 0)) as [[al qi] pi]. reflexivity. }
  apply NoDup_flat_map; [ apply seq_NoDup | | ].
  - intros q Hqq. apply in_seq in Hqq. apply NoDup_flat_map; [ apply seq_NoDup | | ].
    + intros dr Hdr. apply in_seq in Hdr. unfold bu_range.
      apply FinFun.Injective_map_NoDup; [ | apply seq_NoDup ]. intros b b' Heq. apply (f_equal e_idx) in Heq. rewrite !Hidx in Heq. lia.
    + intros dr dr' e H1 H2 H3 H4. apply in_seq in H1, H2. apply in_map_iff in H3, H4. destruct H3 as (b & <- & _), H4 as (b' & E & _).
      apply (f_equal e_row) in E. rewrite !Hrow in E by lia. nia.
  - intros q q' e H1 H2 H3 H4. apply in_seq in H1, H2. apply in_flat_map in H3, H4. destruct H3 as (dr & Hdr & H3), H4 as (dr' & Hdr' & H4).
    apply in_seq in Hdr, Hdr'. apply in_map_iff in H3, H4. destruct H3 as (b & <- & _), H4 as (b' & E & _).
    apply (f_equal e_row) in E. rewrite !Hrow in E by lia. apply rm_inj in E; lia.
Qed.

Notation nE := (nEL s).
Notation nB := (nBU s).
Record good_state (m : nat) (v : solver) : Prop := mkgs {
  g_lel : lens nE (v_el v);
  g_lbu : lens nB (v_bu v);
  g_el : forall e, In e (el_elts s) -> elt_ok det coef_of m (v_el v) e;
  g_bu : forall e, In e (bu_elts s) -> elt_ok det coef_of m (v_bu v) e;
  g_inv : inv s A (2 * (m - 1)) (p_conv (v_el v)) (p_conv (v_bu v)) (v_n v);
  g_cnt : v_count v = ct (p_conv (v_el v)) + ct (p_conv (v_bu v));
  g_last : m = W -> (forall e, In e (el_elts s) -> nth (e_idx e) (p_conv (v_el v)) false = true) /\
                    (forall e, In e (bu_elts s) -> nth (e_idx e) (p_conv (v_bu v)) false = true) }.

Lemma ns_ok nc NM conv convbu st : 0 < nc -> NM < W -> conv_ok s conv convbu -> inv s A (2 * (NM - 1)) conv convbu st ->
  exists st', ofold (neumann_step s nc (D / nc + 1) conv convbu) (ns NM) st = Ok st' /\ inv s A (2 * NM) conv convbu st'.
Proof.
  intros Hnc HNM Hc I. unfold W, NM_max in HNM. destruct NM as [|m]; [ exists st; split; [ reflexivity | exact I ] | ].
  unfold ns. cbn [Nat.eqb]. replace (S m - 1) with m in I by lia.
  destruct (step_ok s A HG Hcol Hends Hq Hd HNp Hcells nc conv convbu st (2 * m) Hnc ltac:(unfold num_terms; lia) Hc I) as (s1 & E1 & I1).
  destruct (step_ok s A HG Hcol Hends Hq Hd HNp Hcells nc conv convbu s1 (S (2 * m)) Hnc ltac:(unfold num_terms; lia) Hc I1) as (s2 & E2 & I2).
  replace (2 * S m - 1) with (S (2 * m)) by lia. replace (2 * S m) with (S (S (2 * m))) by lia.
  cbn [ofold]. fold D in E1, E2. rewrite E1. cbn [obind]. rewrite E2. cbn [obind]. exists s2. split; [ reflexivity | exact I2 ].
Qed.

Lemma nm_ok nc NM v : 0 < nc -> NM < W -> good_state NM v -> v_count v <> nE ->
  exists v', nm_step det (Some f, Some fb) s nc (D / nc + 1) v NM = Ok v' /\ good_state (S NM) v'.
Proof.
  intros Hnc HNM [K1 K2 K3 K4 K5 K6 K7] Hcnt. unfold nm_step. fold nd nq. replace (v_count v =? nd * nd * nq) with false by (symmetry; apply Nat.eqb_neq; exact Hcnt).
  destruct K1 as (La1 & La2 & La3). destruct K2 as (Lb1 & Lb2 & Lb3).
  assert (Hc : conv_ok s (p_conv (v_el v)) (p_conv (v_bu v))) by (split; assumption).
  destruct (ns_ok nc NM _ _ (v_n v) Hnc HNM Hc K5) as (n' & E1 & I1). rewrite E1. cbn [obind]. cbn [fst snd].
  destruct (good_el s A HG Hcol Hends Hq Hd HNp) as [R1 J1]. destruct (good_bu s A HG Hcol Hends Hq Hd HNp Hcells) as [R2 J2].
  assert (HN : NM <= 14) by (unfold W, NM_max in HNM; lia).
  destruct (pade_order_ok det f coef_of nE (el_elts s) (fun e He => proj1 (R1 e He)) J1 NM (n_a n') (v_el v) (v_count v)
     (conj La1 (conj La2 La3)) HNM K3 NoDup_el) as (el & cnt & E2 & L2 & Q2 & G2 & M2 & C2).
  { intros e He Hf k Hk. split; [ | apply (i_a _ _ _ _ _ _ I1); [ exact He | exact Hf | lia ] ].
    rewrite (i_la _ _ _ _ _ _ I1). apply rm_lt; [ apply R1; exact He | unfold num_terms; lia ]. }
  rewrite E2. cbn [obind].
  destruct (pade_order_ok det fb coef_of nB (bu_elts s) (fun e He => proj1 (R2 e He)) J2 NM (n_abu n') (v_bu v) cnt
     (conj Lb1 (conj Lb2 Lb3)) HNM K4 NoDup_bu) as (bu & cnt' & E3 & L3 & Q3 & G3 & M3 & C3).
  { intros e He Hf k Hk. split; [ | apply (i_abu _ _ _ _ _ _ I1); [ exact He | exact Hf | lia ] ].
    rewrite (i_lbu _ _ _ _ _ _ I1). apply rm_lt; [ apply R2; exact He | unfold num_terms; lia ]. }
  rewrite E3. cbn [obind]. eexists. split; [ reflexivity | ]. constructor; cbn [v_n v_el v_bu v_count]; try assumption.
  - replace (S NM - 1) with NM by lia. apply (inv_grows s A (2 * NM) _ _ _ _ n' G2 G3 I1).
  - lia.
  - intros Hm. assert (NM = NM_max) by (unfold W in Hm; lia). split; [ apply M2; assumption | apply M3; assumption ].
Qed.

Lemma fresh_ok n' : inv s A 0 (repeat false nE) (repeat false nB) n' ->
  good_state 0 (mksolver n' (fresh_pst nE) (fresh_pst nB) 0).
Proof.
  intros I. assert (Hf : forall n i, nth i (repeat false n) false = false) by (intros n i; revert i; induction n as [|n IH]; intros [|i]; cbn; auto).
  assert (Hnone : forall n i, nth i (repeat (@None nat) n) None = None) by (intros n i; revert i; induction n as [|n IH]; intros [|i]; cbn; auto).
  assert (Hct : forall n, ct (repeat false n) = 0) by (induction n as [|n IH]; [ reflexivity | exact IH ]).
  constructor; cbn [v_n v_el v_bu v_count fresh_pst p_pa p_best p_conv].
  - unfold lens. cbn [fresh_pst p_pa p_best p_conv]. rewrite !repeat_length. auto.
  - unfold lens. cbn [fresh_pst p_pa p_best p_conv]. rewrite !repeat_length. auto.
  - intros e _. unfold elt_ok. cbn [fresh_pst p_pa p_best p_conv]. split; [ intros _; split; [ apply Hnone | intros; lia ] | intros H; rewrite Hf in H; discriminate ].
  - intros e _. unfold elt_ok. cbn [fresh_pst p_pa p_best p_conv]. split; [ intros _; split; [ apply Hnone | intros; lia ] | intros H; rewrite Hf in H; discriminate ].
  - exact I.
  - rewrite !Hct. reflexivity.
  - unfold W. discriminate.
Qed.

Lemma run_ok nc : 0 < nc -> exists v m, pade_run det (Some f, Some fb) s nc (D / nc + 1) = Ok v /\ m <= W /\ good_state m v /\ (m = W \/ v_count v = nE).
Proof.
  intros Hnc. unfold pade_run. destruct (init_ok s A HG Hcol Hends Hrows Hq Hd HNp Hcells (repeat false nE) (repeat false nB)) as (n0 & E0 & I0).
  rewrite E0. cbn [obind]. fold nd nq. fold (nEL s). change (nd * nd * nq) with nE. change (if s_breakup s then nd * s_nBU s else 0) with nB.
  assert (G : forall k, k <= W -> exists v m, ofold (nm_step det (Some f, Some fb) s nc (D / nc + 1)) (seq 0 k) (mksolver n0 (fresh_pst nE) (fresh_pst nB) 0) = Ok v /\
     m <= k /\ good_state m v /\ (m = k \/ v_count v = nE)).
  { induction k as [|k IH]; intros Hk.
    - exists (mksolver n0 (fresh_pst nE) (fresh_pst nB) 0), 0. split; [ reflexivity | ]. split; [ lia | ]. split; [ apply fresh_ok; exact I0 | left; reflexivity ].
    - destruct (IH ltac:(lia)) as (v & m & E & Hm & Gs & Hor). rewrite seq_S, ofold_app, E. cbn [obind ofold plus].
      destruct (Nat.eq_dec (v_count v) nE) as [Heq|Hne].
      + exists v, m. split; [ | split; [ lia | split; [ exact Gs | right; exact Heq ] ] ].
        unfold nm_step. fold nd nq. change (nd * nd * nq) with nE. rewrite Heq, Nat.eqb_refl. reflexivity.
      + destruct Hor as [->|Hx]; [ | contradiction ]. destruct (nm_ok nc k v Hnc ltac:(lia) Gs Hne) as (v' & E' & Gs'). rewrite E'. cbn [obind].
        exists v', (S k). split; [ reflexivity | ]. split; [ lia | ]. split; [ exact Gs' | left; reflexivity ]. }
  destruct (G W (le_n _)) as (v & m & E & Hm & Gs & Hor). exists v, m. split; [ exact E | ]. auto.
Qed.

(* ---------- reporting ---------- *)
Lemma report_ok n (l : list elt) p m U : lens n p -> (forall e, In e l -> elt_ok det coef_of m p e) ->
  (forall e, In e l -> e_idx e < n) -> (forall e e', In e l -> In e' l -> e_idx e = e_idx e' -> e = e') ->
  (forall e, In e l -> nth (e_idx e) (p_conv p) false = true) -> (forall e, In e l -> e_idx e < length U) ->
  exists U', report p l U = Ok U' /\ length U' = length U /\
    (forall e, In e l -> exists b, b < W /\ nth (e_idx e) U' c0 = PA det coef_of e b) /\
    (forall i, (forall e, In e l -> e_idx e <> i) -> nth i U' c0 = nth i U c0).
Proof.
  intros (L1 & L2 & L3) HQ Hlt Hinj Hall HU. unfold report.
  destruct (ofold_inv (fun dn U' => length U' = length U /\ (forall e, In e dn -> exists b, b < W /\ nth (e_idx e) U' c0 = PA det coef_of e b) /\
      (forall i, (forall e, In e dn -> e_idx e <> i) -> nth i U' c0 = nth i U c0))
    (fun U e => do b <- pread (p_best p) (e_idx e); do x <- aread (p_pa p) (e_idx e * (NM_max + 1) + b); awrite U (e_idx e) x) l U) as (U' & E & H).
  - split; [ reflexivity | ]. split; [ intros e [] | reflexivity ].
  - intros dn e rest V Hl (K1 & K2 & K3). assert (He : In e l) by (rewrite Hl; apply in_or_app; right; left; reflexivity).
    destruct (proj2 (HQ e He) (Hall e He)) as (b & B1 & B2 & B3). pose proof (Hlt e He) as Hi.
    assert (Eb : pread (p_best p) (e_idx e) = Ok b).
    { unfold pread. rewrite (nth_error_nth' _ None) by lia. rewrite B2. reflexivity. }
    rewrite Eb. cbn [obind]. fold W. assert (B : e_idx e * W + b < n * W) by (apply rm_lt; assumption).
    rewrite (aread_nth _ _ c0) by lia. cbn [obind]. rewrite B3.
    destruct (nth_awrite V (e_idx e) (PA det coef_of e b) c0) as (V' & EV & LV & WV & OV); [ rewrite K1; apply HU; exact He | ].
    exists V'. split; [ exact EV | ]. split; [ congruence | ]. split.
    + intros e' He'. apply in_app_or in He'. destruct (Nat.eq_dec (e_idx e') (e_idx e)) as [Heq|Hne].
      * assert (e' = e). { apply Hinj; [ | exact He | exact Heq ]. destruct He' as [He'|[<-|[]]]; [ rewrite Hl; apply in_or_app; left; exact He' | exact He ]. }
        subst e'. exists b. split; [ exact B1 | exact WV ].
      * destruct He' as [He'|[<-|[]]]; [ | contradiction ]. rewrite OV by exact Hne. apply K2; exact He'.
    + intros i Hi'. rewrite OV. 2:{ intros Heq. apply (Hi' e); [ apply in_or_app; right; left; reflexivity | symmetry; exact Heq ]. }
      apply K3. intros e' He'. apply Hi'. apply in_or_app; left; exact He'.
  - exists U'. tauto.
Qed.

(* report never does anything but succeed or run into undefined behaviour, and success means every index was in range
   and every best order had been set *)
Lemma report_inv p l U U' : report p l U = Ok U' -> length U' = length U /\ forall e, In e l -> e_idx e < length U /\ exists b, nth_error (p_best p) (e_idx e) = Some (Some b).
Proof.
  unfold report. revert U; induction l as [|e l IH]; intros U H; [ injection H as <-; split; [ reflexivity | intros e [] ] | ].
  cbn [ofold] in H. unfold pread at 1 in H. destruct (nth_error (p_best p) (e_idx e)) as [[b|]|] eqn:Eb; cbn [obind] in H; try discriminate.
  destruct (aread (p_pa p) (e_idx e * (NM_max + 1) + b)) as [x| | |] eqn:Ex; cbn [obind] in H; try discriminate.
  destruct (awrite U (e_idx e) x) as [V| | |] eqn:EV; cbn [obind] in H; try discriminate.
  assert (HV : e_idx e < length U /\ length V = length U).
  { destruct (Nat.lt_ge_cases (e_idx e) (length U)) as [Hlt|Hge].
    - split; [ exact Hlt | ]. destruct (nth_awrite U (e_idx e) x c0 Hlt) as (V' & E' & L' & _). congruence.
    - unfold awrite in EV. replace (e_idx e <? length U) with false in EV by (symmetry; apply Nat.ltb_ge; exact Hge). discriminate. }
  destruct HV as [H1 H2]. destruct (IH V H) as [K1 K2]. split; [ congruence | ]. intros e' [<-|He'].
  - split; [ exact H1 | exists b; exact Eb ].
  - destruct (K2 e' He') as [X1 X2]. split; [ rewrite <- H2; exact X1 | exact X2 ].
Qed.
Lemma report_ub p l U : (exists U', report p l U = Ok U') \/ report p l U = UB.
Proof.
  unfold report. revert U; induction l as [|e l IH]; intros U; [ left; eexists; reflexivity | ]. cbn [ofold].
  destruct (pread (p_best p) (e_idx e)) as [b| | |] eqn:E1; [ | unfold pread in E1; destruct (nth_error _ _) as [[]|]; discriminate .. | right; reflexivity ]. cbn [obind].
  destruct (aread (p_pa p) (e_idx e * (NM_max + 1) + b)) as [x| | |] eqn:E2; [ | unfold aread in E2; destruct (nth_error _ _); discriminate .. | right; reflexivity ]. cbn [obind].
  destruct (awrite U (e_idx e) x) as [V| | |] eqn:E3; [ | unfold awrite in E3; destruct (_ <? _); discriminate .. | right; reflexivity ]. cbn [obind]. apply IH.
Qed.
End Run.
