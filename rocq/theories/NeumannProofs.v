(* The blocks of Neumann terms: which term of which element they hold. *)
From Coq Require Import Reals Lra ZifyBool.
From Verif Require Import Common ArrayLib PWModel SwpModel ResolventModel GridSpec KernelModel KernelSpec FaddeevModel FaddeevSpec
  FaddeevProofs FaddeevStepProofs FaddeevLink FaddeevPadeProofs FaddeevSolveProofs FaddeevRuleProofs FaddeevAcceptProofs NeumannModel.
Open Scope nat_scope.

(* a loop that writes, for the elements not skipped, their own place *)
Lemma store1 (n : nat) (skip : elt -> bool) (val : elt -> cdouble) (F : list cdouble -> elt -> outcome (list cdouble)) l a :
  length a = n -> (forall e, In e l -> e_idx e < n) -> (forall e e', In e l -> In e' l -> e_idx e = e_idx e' -> e = e') ->
  (forall e b, In e l -> length b = n -> F b e = if skip e then Ok b else awrite b (e_idx e) (val e)) ->
  exists a', ofold F l a = Ok a' /\ length a' = n /\
    forall e, In e l -> nth (e_idx e) a' c0 = if skip e then nth (e_idx e) a c0 else val e.
Proof.
  intros La Hlt Hinj HF.
  destruct (ofold_inv (fun done (b : list cdouble) => length b = n /\
      (forall e, In e done -> nth (e_idx e) b c0 = if skip e then nth (e_idx e) a c0 else val e) /\
      (forall e, In e l -> ~ In e done -> nth (e_idx e) b c0 = nth (e_idx e) a c0)) F l a) as (a' & E & H).
  - split; [ exact La | ]. split; [ intros e [] | reflexivity ].
  - intros dn e rest b Hl (Lb & H1 & H2).
    assert (Hin : In e l) by (rewrite Hl; apply in_or_app; right; left; reflexivity).
    assert (Hdn : forall x, In x dn -> In x l) by (intros x Hx; rewrite Hl; apply in_or_app; left; exact Hx).
    rewrite (HF e b Hin Lb). destruct (skip e) eqn:Es.
    + exists b. split; [ reflexivity | ]. split; [ exact Lb | ]. split.
      * intros e' He'. apply in_app_or in He'. destruct He' as [He'|[<-|[]]]; [ apply H1; assumption | ]. rewrite Es.
        destruct (in_dec elt_dec e dn) as [Hd|Hd]; [ rewrite (H1 e Hd), Es; reflexivity | apply H2; assumption ].
      * intros e' He' Hn. apply H2; [ exact He' | ]. intros Hx. apply Hn, in_or_app. left; exact Hx.
    + destruct (nth_awrite b (e_idx e) (val e) c0 ltac:(rewrite Lb; apply Hlt; exact Hin)) as (b' & Eb & Lb' & Wr & O). exists b'. split; [ exact Eb | ].
      assert (Hoth : forall x, In x l -> x <> e -> nth (e_idx x) b' c0 = nth (e_idx x) b c0).
      { intros x Hx Hne. apply O. intros Heq. apply Hne, Hinj; assumption. }
      split; [ congruence | ]. split.
      * intros e' He'. destruct (elt_dec e' e) as [->|Hne]; [ rewrite Es; exact Wr | ].
        apply in_app_or in He'. destruct He' as [He'|[<-|[]]]; [ | contradiction ]. rewrite Hoth by auto. apply H1; exact He'.
      * intros e' He' Hn. rewrite Hoth; [ apply H2; [ exact He' | ] | exact He' | ].
        -- intros Hx. apply Hn, in_or_app. left; exact Hx.
        -- intros ->. apply Hn, in_or_app. right; left; reflexivity.
  - exists a'. destruct H as (H1 & H2 & _). auto.
Qed.

(* what is accepted at one order *)
Section Now.
Variables (det : list cdouble -> nat -> cdouble) (coef : elt -> nat -> cdouble).
Notation PAe := (PA det coef).
Definition now_accepted (p0 : pst) (NM : nat) (l : list elt) (p : pst) : Prop := forall e, In e l ->
  nth (e_idx e) (p_conv p0) false = false -> nth (e_idx e) (p_conv p) false = true ->
  exists b, nth (e_idx e) (p_best p) None = Some b /\ nth (e_idx e * W + b) (p_pa p) c0 = PAe e b /\ accepted_at det coef e b NM.
Lemma now_order g n l NM a p cnt p' cnt' : (forall e, In e l -> e_idx e < n) ->
  (forall e e', In e l -> In e' l -> e_idx e = e_idx e' -> e = e') -> lens n p -> NM < W ->
  (forall e, In e l -> elt_ok det coef NM p e) ->
  (forall e, In e l -> nth (e_idx e) (p_conv p) false = false -> forall k, k <= 2 * NM -> e_idx e * num_terms + k < length a /\ nth (e_idx e * num_terms + k) a c0 = coef e k) ->
  pade_order det (Some g) NM a l (p, cnt) = Ok (p', cnt') -> now_accepted p NM l p'.
Proof.
  intros Hlt Hinj HL HNW Hok Ha E. unfold pade_order in E.
  destruct (ofold_inv (fun dn (st : pst * nat) => lens n (fst st) /\ now_accepted p NM l (fst st) /\
      (forall e, In e l -> nth (e_idx e) (p_conv (fst st)) false = false -> nth (e_idx e) (p_conv p) false = false) /\
      (forall e, In e l -> nth (e_idx e) (p_conv (fst st)) false = false -> forall k, k < NM -> nth (e_idx e * W + k) (p_pa (fst st)) c0 = PAe e k))
    (fun st e => pade_element det (Some g) NM a st (e_idx e)) l (p, cnt)) as ([q cq] & E' & _ & HA & _).
  - cbn [fst]. split; [ exact HL | ]. split; [ intros e He Hf Ht; congruence | ]. split; [ auto | ]. intros e He Hf. exact (proj2 (proj1 (Hok e He) Hf)).
  - intros dn e rest [q cq] Hl (L & HA & HM & HC). cbn [fst] in *.
    assert (He : In e l) by (rewrite Hl; apply in_or_app; right; left; reflexivity). pose proof (Hlt e He) as Hi.
    destruct (Bool.bool_dec (nth (e_idx e) (p_conv q) false) true) as [Hc|Hc].
    + exists (q, cq). split; [ | auto ]. unfold pade_element. cbn [fst snd]. destruct L as (_ & _ & L3). rewrite (aread_nth _ _ false) by lia. cbn [obind]. rewrite Hc. reflexivity.
    + apply Bool.not_true_is_false in Hc.
      destruct (pade_element_val det g coef n l Hlt Hinj NM a q cq e He L HNW Hc (HC e He Hc) (Ha e He (HM e He Hc))) as (pa & Lp & Op & Wp & Hcase).
      cbv zeta in Hcase. set (bm := best_val det coef NM e (before g NM q e)) in *. destruct L as (L1 & L2 & L3).
      assert (Hcell : forall e' k, In e' l -> e' <> e -> k < W -> nth (e_idx e' * W + k) pa c0 = nth (e_idx e' * W + k) (p_pa q) c0).
      { intros e' k He' Hne Hk. apply Op. intros Heq. apply rm_inj in Heq; [ | exact Hk | exact HNW ]. apply Hne, Hinj; [ exact He' | exact He | tauto ]. }
      destruct (conv_val det coef NM e bm) eqn:Ecv.
      * destruct Hcase as (cv & bs & Ee & Ew & Eb). exists (mkpst pa bs cv, S cq). split; [ exact Ee | ]. cbn [fst].
        destruct (nth_awrite (p_conv q) (e_idx e) true false ltac:(lia)) as (cv' & Ew' & Lw & Ww & Ow). assert (cv' = cv) by congruence. subst cv'.
        destruct (nth_awrite (p_best q) (e_idx e) (Some (fst bm)) None ltac:(lia)) as (bs' & Eb' & Lb & Wb & Ob). assert (bs' = bs) by congruence. subst bs'.
        assert (Hidx : forall e', In e' l -> e' <> e -> e_idx e' <> e_idx e) by (intros e' He' Hne Heq; apply Hne, Hinj; assumption).
        split; [ unfold lens; cbn [p_pa p_best p_conv]; split; [ congruence | split; congruence ] | ]. cbn [p_conv p_best p_pa]. split; [ | split ].
        -- intros e' He' Hf' Hcv'. cbn [p_conv p_best p_pa] in *. destruct (elt_dec e' e) as [->|Hne].
           ++ exists (fst bm). split; [ exact Wb | ]. pose proof (accept_spec det coef NM e (before g NM q e) ltac:(unfold W in HNW; lia) Ecv) as HS. fold bm in HS. split; [ | exact HS ].
              destruct HS as [Hle _]. destruct (Nat.eq_dec (fst bm) NM) as [->|Hn]; [ exact Wp | ]. rewrite Op by lia. apply HC; [ exact He | exact Hc | lia ].
           ++ rewrite Ow in Hcv' by (apply Hidx; assumption). destruct (HA e' He' Hf' Hcv') as (b & B1 & B2 & B3). exists b.
              rewrite Ob by (apply Hidx; assumption). split; [ exact B1 | ]. split; [ | exact B3 ]. destruct B3 as (B3 & B4 & _). rewrite Hcell; [ exact B2 | assumption.. | unfold W; lia ].
        -- intros e' He' Hf. destruct (elt_dec e' e) as [->|Hne]; [ congruence | ]. apply HM; [ exact He' | ]. rewrite Ow in Hf by (apply Hidx; assumption). exact Hf.
        -- intros e' He' Hf k Hk. destruct (elt_dec e' e) as [->|Hne]; [ congruence | ]. rewrite Ow in Hf by (apply Hidx; assumption). rewrite Hcell by (try assumption; lia). apply HC; assumption.
      * exists (mkpst pa (p_best q) (p_conv q), cq). split; [ exact Hcase | ]. cbn [fst p_conv p_best p_pa].
        split; [ unfold lens; cbn [p_pa p_best p_conv]; split; [ congruence | split; assumption ] | ]. split; [ | split ].
        -- intros e' He' Hf' Hcv'. cbn [p_conv p_best p_pa] in *. destruct (HA e' He' Hf' Hcv') as (b & B1 & B2 & B3). exists b. split; [ exact B1 | ]. split; [ | exact B3 ].
           destruct B3 as (B3 & B4 & _). destruct (elt_dec e' e) as [->|Hne]; [ congruence | ]. rewrite Hcell; [ exact B2 | assumption.. | unfold W; lia ].
        -- exact HM.
        -- intros e' He' Hf k Hk. destruct (elt_dec e' e) as [->|Hne]; [ rewrite Op by lia; apply HC; assumption | ]. rewrite Hcell by (try assumption; lia). apply HC; assumption.
  - rewrite E in E'. assert (q = p') by congruence. subst q. exact HA.
Qed.
End Now.

Section Run.
Variables (s : fsys) (tensor iso : bool) (Jm mx c : Z) (states : list pw) (V C : list R * list R).
Hypothesis Hsys : channel_system s tensor iso Jm mx c states V C.
Hypothesis HD : (1 <= zn (s_D s) <= 2 ^ 28)%Z.
Let A := kernel_matrix s tensor iso states V C.
Variable det : list cdouble -> nat -> cdouble.
Variables f fb : nat -> cdouble.
Notation nE := (s_nd s * s_nd s * s_nq s).
Notation nB := (if s_breakup s then s_nd s * s_nBU s else 0).
Notation coef := (coef_of s A).
Notation nc := (ncn s).
Notation nch := (s_D s / ncn s + 1).
Let HG := HG s tensor iso Jm mx c states V C Hsys.
Let Hq := Hq s tensor iso Jm mx c states V C Hsys.
Let Hd := Hd s tensor iso Jm mx c states V C Hsys.
Let HNp := HNp s tensor iso Jm mx c states V C Hsys.
Let Hcol := link_col s tensor iso Jm mx c states V C Hsys.
Let Hrows := link_rows s tensor iso Jm mx c states V C Hsys.
Let Hends := link_ends s tensor iso Jm mx c states V C Hsys.
Let Hcells := link_cells s tensor iso Jm mx c states V C Hsys.
Let Gel := gel s tensor iso Jm mx c states V C Hsys.

(* one n: the run of the solver, and what the block holds *)
Lemma term_step_ok conv convbu st store bl n : S n < num_terms -> conv_ok s conv convbu -> inv s A n conv convbu st -> length store = nE ->
  exists st' store', neumann_step s nc nch conv convbu st (S n) = Ok st' /\ inv s A (S n) conv convbu st' /\
    term_step s nc nch conv convbu (st, store, bl) (S n) = Ok (st', store', bl ++ [(S n, store')]) /\ length store' = nE /\
    forall e, In e (el_elts s) -> nth (e_idx e) store' c0 = if nth (e_idx e) conv false then nth (e_idx e) store c0 else term s A (S n) e.
Proof.
  intros Hn Hc I Ls. pose proof (ncn_pos s tensor iso Jm mx c states V C Hsys HD) as Hnc.
  destruct (step_ok s A HG Hcol Hends Hq Hd HNp Hcells nc conv convbu st n Hnc Hn Hc I) as (st' & E & I').
  destruct Gel as [R1 J1].
  assert (Hcell : forall e, In e (el_elts s) -> nth (e_idx e) conv false = false -> nth (e_idx e * num_terms + S n) (n_a st') c0 = cell (n_cur st') (e_row e * s_D s + e_col e)).
  { intros e He Hf. unfold neumann_step in E.
    destruct (mult_G s (n_prev st)) as [prev| | |]; cbn [obind] in E; try discriminate.
    destruct (compact s conv convbu prev (n_comp st)) as [[comp index]| | |]; cbn [obind] in E; try discriminate.
    destruct (ofold (chunk_step s nc (length index) comp) (seq 0 nch) (n_prod st)) as [prod| | |]; cbn [obind] in E; try discriminate.
    destruct (write_back s prod index (n_cur st)) as [cur| | |] eqn:Ew; cbn [obind] in E; try discriminate.
    destruct (extract_terms s conv cur (S n) (el_elts s) (n_a st)) as [a| | |] eqn:Ea; cbn [obind] in E; try discriminate.
    destruct (extract_terms s convbu cur (S n) (bu_elts s) (n_abu st)) as [b| | |] eqn:Eb; cbn [obind] in E; try discriminate.
    assert (st' = mknst cur cur comp prod a b) by congruence. subst st'. cbn [n_a n_cur].
    pose proof (i_cur _ _ _ _ _ _ I') as Lc. cbn [n_cur] in Lc.
    destruct (extract_ok s A HG Hcol Hends Hq Hd HNp conv cur (S n) (nEL s) (el_elts s) (n_a st) (conj R1 J1) Hn (proj1 Hc) (i_la _ _ _ _ _ _ I) Lc) as (a' & Ea' & _ & H & _).
    assert (a' = a) by congruence. subst a'. apply H; assumption. }
  destruct (store1 nE (fun e => nth (e_idx e) conv false) (fun e => cell (n_cur st') (e_row e * s_D s + e_col e))
     (fun b e => do c <- aread conv (e_idx e); if c then Ok b else
        do x <- aread (fst (n_cur st')) (e_row e * s_D s + e_col e); do y <- aread (snd (n_cur st')) (e_row e * s_D s + e_col e); awrite b (e_idx e) (x, y))
     (el_elts s) store Ls (fun e He => proj1 (R1 e He)) J1) as (store' & Es & Ls' & Hs).
  { intros e b He Lb. destruct (R1 e He) as (H1 & H2 & H3). destruct Hc as [C1 _]. unfold nEL in H1, C1.
    rewrite (aread_nth _ _ false) by lia. cbn [obind]. destruct (nth (e_idx e) conv false); [ reflexivity | ].
    destruct (i_cur _ _ _ _ _ _ I') as [L1 L2].
    assert (B : e_row e * s_D s + e_col e < s_nd s * s_nq s * s_D s) by (apply rm_lt; assumption).
    rewrite !(aread_nth _ _ 0%R) by lia. reflexivity. }
  exists st', store'. split; [ exact E | ]. split; [ exact I' | ]. split.
  { assert (Es' : store_terms s conv (n_cur st') (el_elts s) store = Ok store') by exact Es. clear Es.
    unfold term_step. cbn [fst snd]. rewrite E. cbn [obind]. rewrite Es'. reflexivity. }
  split; [ exact Ls' | ]. intros e He. rewrite (Hs e He). destruct (nth (e_idx e) conv false) eqn:Ef; [ reflexivity | ].
  rewrite <- (Hcell e He Ef). apply (i_a _ _ _ _ _ _ I'); [ exact He | exact Ef | lia ].
Qed.

Definition block_val (bl : blocks) (n : nat) (i : nat) : cdouble :=
  match find (fun b => fst b =? n) bl with Some b => nth i (snd b) c0 | None => c0 end.

Record tinv (m : nat) (t : traced) : Prop := mktinv {
  t_len : length (t_store t) = nE;
  t_ns : map fst (t_blocks t) = seq 0 (2 * (m - 1) + 1);
  t_lens : forall b, In b (t_blocks t) -> length (snd b) = nE;
  t_open : forall e, In e (el_elts s) -> nth (e_idx e) (p_conv (v_el (t_v t))) false = false ->
    nth (e_idx e) (t_store t) c0 = term s A (2 * (m - 1)) e /\ forall b, In b (t_blocks t) -> nth (e_idx e) (snd b) c0 = term s A (fst b) e;
  t_done : forall e, In e (el_elts s) -> nth (e_idx e) (p_conv (v_el (t_v t))) false = true ->
    exists k b, k < m /\ nth (e_idx e) (p_best (v_el (t_v t))) None = Some b /\ nth (e_idx e * W + b) (p_pa (v_el (t_v t))) c0 = PA det coef e b /\
      accepted_at det coef e b k /\ ((k < NM_max -> stopr s tensor iso states V C det f e k = true) /\ forall j, j < k -> stopr s tensor iso states V C det f e j = false) /\
      nth (e_idx e) (t_store t) c0 = term s A (2 * k) e /\ forall b, In b (t_blocks t) -> nth (e_idx e) (snd b) c0 = term s A (min (fst b) (2 * k)) e }.

(* the terms of one order *)
Lemma terms_ok m v store bl : m < W -> conv_ok s (p_conv (v_el v)) (p_conv (v_bu v)) ->
  inv s A (2 * (m - 1)) (p_conv (v_el v)) (p_conv (v_bu v)) (v_n v) -> length store = nE ->
  exists n' store' new, ofold (neumann_step s nc nch (p_conv (v_el v)) (p_conv (v_bu v))) (ns m) (v_n v) = Ok n' /\
    ofold (term_step s nc nch (p_conv (v_el v)) (p_conv (v_bu v))) (ns m) (v_n v, store, bl) = Ok (n', store', bl ++ new) /\
    inv s A (2 * m) (p_conv (v_el v)) (p_conv (v_bu v)) n' /\ length store' = nE /\ map fst new = ns m /\
    (forall b, In b new -> length (snd b) = nE) /\
    forall e, In e (el_elts s) ->
      (nth (e_idx e) (p_conv (v_el v)) false = true -> nth (e_idx e) store' c0 = nth (e_idx e) store c0 /\ forall b, In b new -> nth (e_idx e) (snd b) c0 = nth (e_idx e) store c0) /\
      (nth (e_idx e) (p_conv (v_el v)) false = false -> (1 <= m -> nth (e_idx e) store' c0 = term s A (2 * m) e) /\ (m = 0 -> store' = store) /\
         forall b, In b new -> nth (e_idx e) (snd b) c0 = term s A (fst b) e).
Proof.
  intros Hm Hc I Ls. unfold W, NM_max in Hm. destruct m as [|k].
  - exists (v_n v), store, []. cbn [ns Nat.eqb ofold map]. rewrite app_nil_r. split; [ reflexivity | ]. split; [ reflexivity | ]. split; [ exact I | ].
    split; [ exact Ls | ]. split; [ reflexivity | ]. split; [ intros b [] | ]. intros e He. split; intros Hf.
    + split; [ reflexivity | intros b [] ].
    + split; [ intros; lia | ]. split; [ reflexivity | intros b [] ].
  - unfold ns. cbn [Nat.eqb]. replace (S k - 1) with k in I by lia.
    replace (2 * S k - 1) with (S (2 * k)) by lia. replace (2 * S k) with (S (S (2 * k))) by lia.
    destruct (term_step_ok _ _ (v_n v) store bl (2 * k) ltac:(unfold num_terms; lia) Hc I Ls) as (s1 & b1 & E1 & I1 & T1 & L1 & H1).
    destruct (term_step_ok _ _ s1 b1 (bl ++ [(S (2 * k), b1)]) (S (2 * k)) ltac:(unfold num_terms; lia) Hc I1 L1) as (s2 & b2 & E2 & I2 & T2 & L2 & H2).
    exists s2, b2, [(S (2 * k), b1); (S (S (2 * k)), b2)]. cbn [ofold]. rewrite E1, T1. cbn [obind]. rewrite E2, T2. cbn [obind].
    split; [ reflexivity | ]. split; [ rewrite <- app_assoc; reflexivity | ]. split; [ exact I2 | ]. split; [ exact L2 | ]. split; [ reflexivity | ].
    split; [ intros b [<-|[<-|[]]]; assumption | ]. intros e He. specialize (H1 e He). specialize (H2 e He). split; intros Hf; rewrite Hf in H1, H2.
    + split; [ congruence | ]. intros b [<-|[<-|[]]]; cbn [snd]; congruence.
    + split; [ intros _; exact H2 | ]. split; [ discriminate | ]. intros b [<-|[<-|[]]]; cbn [fst snd]; assumption.
Qed.

Lemma nm_step_t_ok m t : m < W -> good_state s A det m (t_v t) -> v_count (t_v t) <> nE -> tinv m t ->
  rule s tensor iso states V C det f (el_elts s) m (v_el (t_v t)) -> rule s tensor iso states V C det fb (bu_elts s) m (v_bu (t_v t)) ->
  exists t', nm_step_t det (Some f, Some fb) s nc nch t m = Ok t' /\ nm_step det (Some f, Some fb) s nc nch (t_v t) m = Ok (t_v t') /\
    good_state s A det (S m) (t_v t') /\ tinv (S m) t' /\
    rule s tensor iso states V C det f (el_elts s) (S m) (v_el (t_v t')) /\ rule s tensor iso states V C det fb (bu_elts s) (S m) (v_bu (t_v t')).
Proof.
  intros Hm Gs Hne TI Q1 Q2. pose proof (ncn_pos s tensor iso Jm mx c states V C Hsys HD) as Hnc.
  destruct (nm_ok s A HG Hcol Hends Hq Hd HNp Hcells det f fb nc m (t_v t) Hnc Hm Gs Hne) as (v' & E' & Gs').
  destruct (rule_nm s tensor iso Jm mx c states V C Hsys HD det f fb m (t_v t) v' Hm Gs Hne Q1 Q2 E') as [Q1' Q2'].
  pose proof Gs as [K1 K2 K3 K4 K5 K6 K7].
  assert (Hcv : conv_ok s (p_conv (v_el (t_v t))) (p_conv (v_bu (t_v t)))) by (split; [ apply K1 | apply K2 ]).
  destruct (terms_ok m (t_v t) (t_store t) (t_blocks t) Hm Hcv K5 (t_len _ _ TI)) as (n' & store' & new & E1 & T1 & I1 & Ls & Fn & Ln & Hb).
  pose proof E' as E2. unfold nm_step in E2. replace (v_count (t_v t) =? nE) with false in E2 by (symmetry; apply Nat.eqb_neq; exact Hne).
  rewrite E1 in E2. cbn [obind fst snd] in E2.
  destruct (pade_order det (Some f) m (n_a n') (el_elts s) (v_el (t_v t), v_count (t_v t))) as [[el cn]| | |] eqn:P1; cbn [obind] in E2; try discriminate.
  destruct (pade_order det (Some fb) m (n_abu n') (bu_elts s) (v_bu (t_v t), cn)) as [[bu cn']| | |] eqn:P2; cbn [obind] in E2; try discriminate.
  assert (v' = mksolver n' el bu cn') by congruence. subst v'. clear E2.
  exists (mktraced (mksolver n' el bu cn') store' (t_blocks t ++ new)). cbn [t_v v_el v_bu]. split.
  { unfold nm_step_t. replace (v_count (t_v t) =? nE) with false by (symmetry; apply Nat.eqb_neq; exact Hne).
    rewrite T1. cbn [obind fst snd]. rewrite P1. cbn [obind]. rewrite P2. reflexivity. }
  split; [ exact E' | ]. split; [ exact Gs' | ]. split; [ | split; assumption ].
  destruct Gel as [R1 J1].
  assert (Hnow : now_accepted det coef (v_el (t_v t)) m (el_elts s) el).
  { refine (now_order det coef f nE (el_elts s) m (n_a n') (v_el (t_v t)) (v_count (t_v t)) el cn (fun e He => proj1 (R1 e He)) J1 K1 Hm K3 _ P1).
    intros e He Hf k Hk. split; [ | apply (i_a _ _ _ _ _ _ I1); [ exact He | exact Hf | lia ] ].
    rewrite (i_la _ _ _ _ _ _ I1). apply rm_lt; [ apply R1; exact He | unfold num_terms; unfold W, NM_max in Hm; lia ]. }
  assert (Hkeep : forall i, keeps i (v_el (t_v t)) el) by (intros i; exact (pade_order_keeps _ _ _ _ _ _ _ _ _ i Hm P1)).
  destruct TI as [TL TN TLs TO TD]. constructor; cbn [t_v t_store t_blocks v_el].
  - exact Ls.
  - rewrite map_app, TN, Fn. destruct m as [|k]; [ rewrite app_nil_r; reflexivity | ]. unfold ns. cbn [Nat.eqb].
    replace (2 * (S (S k) - 1) + 1) with ((2 * (S k - 1) + 1) + 2) by lia. rewrite (seq_app (2 * (S k - 1) + 1) 2 0). replace (0 + (2 * (S k - 1) + 1)) with (2 * S k - 1) by lia.
    change (seq (2 * S k - 1) 2) with [2 * S k - 1; S (2 * S k - 1)]. replace (S (2 * S k - 1)) with (2 * S k) by lia. reflexivity.
  - intros b Hin. apply in_app_or in Hin. destruct Hin as [Hin|Hin]; [ apply TLs | apply Ln ]; exact Hin.
  - intros e He Hf. assert (Hf0 : nth (e_idx e) (p_conv (v_el (t_v t))) false = false).
    { apply Bool.not_true_is_false. intros Ht. destruct (Hkeep (e_idx e) Ht) as (X & _). congruence. }
    destruct (TO e He Hf0) as [O1 O2]. destruct (proj2 (Hb e He) Hf0) as (B1 & B2 & B3). replace (S m - 1) with m by lia. split.
    + destruct m as [|k]; [ rewrite (B2 eq_refl); exact O1 | apply B1; lia ].
    + intros b Hin. apply in_app_or in Hin. destruct Hin as [Hin|Hin]; [ apply O2 | apply B3 ]; exact Hin.
  - intros e He Ht. destruct (Bool.bool_dec (nth (e_idx e) (p_conv (v_el (t_v t))) false) true) as [Ht0|Hf0].
    + destruct (TD e He Ht0) as (k & b & D1 & D2 & D3 & D4 & D5 & D6 & D7). destruct (Hkeep (e_idx e) Ht0) as (_ & X2 & X3).
      destruct (proj1 (Hb e He) Ht0) as [B1 B2]. exists k, b. split; [ lia | ]. split; [ congruence | ]. split.
      { rewrite X3; [ exact D3 | ]. destruct D4 as (D4 & D4' & _). unfold W. lia. }
      split; [ exact D4 | ]. split; [ exact D5 | ]. split; [ congruence | ]. intros bb Hin. apply in_app_or in Hin.
      destruct Hin as [Hin|Hin]; [ apply D7; exact Hin | ]. rewrite (B2 bb Hin), D6. f_equal.
      assert (Hbb : In (fst bb) (ns m)) by (rewrite <- Fn; apply in_map; exact Hin).
      unfold ns in Hbb. destruct m as [|m']; [ destruct Hbb | ]. cbn [Nat.eqb] in Hbb. destruct Hbb as [Hx|[Hx|[]]]; lia.
    + apply Bool.not_true_is_false in Hf0. destruct (Hnow e He Hf0 Ht) as (b & N1 & N2 & N3). destruct (TO e He Hf0) as [O1 O2]. destruct (proj2 (Hb e He) Hf0) as (B1 & B2 & B3).
      exists m, b. split; [ lia | ]. split; [ exact N1 | ]. split; [ exact N2 | ]. split; [ exact N3 | ]. split.
      { destruct Q1 as [X1 _]. destruct (X1 ltac:(unfold W in Hm; lia)) as [_ X2]. specialize (X2 e He). rewrite Hf0 in X2. split.
        { intros Hlt. destruct Q1' as [Y1 _]. destruct (Y1 ltac:(lia)) as [_ Y2]. specialize (Y2 e He). cbn [v_el] in Y2. rewrite Ht in Y2.
          rewrite seq_S, existsb_app, <- X2 in Y2. cbn [plus existsb orb] in Y2. rewrite orb_false_r in Y2. symmetry; exact Y2. }
        intros j Hj. apply Bool.not_true_is_false. intros Hs. assert (Hx : existsb (stopr s tensor iso states V C det f e) (seq 0 m) = true).
        { apply existsb_exists. exists j. split; [ apply in_seq; lia | exact Hs ]. } congruence. }
      split.
      { destruct m as [|k]; [ rewrite (B2 eq_refl); exact O1 | apply B1; lia ]. }
      intros bb Hin. apply in_app_or in Hin. destruct Hin as [Hin|Hin].
      * rewrite (O2 bb Hin). f_equal. assert (Hbb : In (fst bb) (seq 0 (2 * (m - 1) + 1))) by (rewrite <- TN; apply in_map; exact Hin).
        apply in_seq in Hbb. destruct m; lia.
      * rewrite (B3 bb Hin). f_equal. assert (Hbb : In (fst bb) (ns m)) by (rewrite <- Fn; apply in_map; exact Hin).
        unfold ns in Hbb. destruct m as [|m']; [ destruct Hbb | ]. cbn [Nat.eqb] in Hbb. destruct Hbb as [Hx|[Hx|[]]]; lia.
Qed.

Lemma trace_run : exists t m, pade_run_t det (Some f, Some fb) s nc nch = Ok t /\ pade_run det (Some f, Some fb) s nc nch = Ok (t_v t) /\
  m <= W /\ good_state s A det m (t_v t) /\ tinv m t /\ (m = W \/ v_count (t_v t) = nE).
Proof.
  unfold pade_run_t, pade_run. pose proof Gel as [R1 J1].
  destruct (init_ok s A HG Hcol Hends Hrows Hq Hd HNp Hcells (repeat false nE) (repeat false nB)) as (n0 & E0 & I0).
  rewrite E0. cbn [obind].
  assert (Hre : forall e, In e (el_elts s) -> nth (e_idx e * num_terms + 0) (n_a n0) c0 = (nth (e_row e * s_D s + e_col e) (fst (n_prev n0)) 0%R, 0%R)).
  { intros e He. unfold neumann_init in E0.
    set (z := repeat 0%R (s_D s * (s_nd s * s_nq s))) in E0. assert (Lz : length z = s_nd s * s_nq s * s_D s) by (unfold z; rewrite repeat_length; apply Nat.mul_comm).
    destruct (Hrows z Lz) as (re & Er & Lr & _). rewrite Er in E0. cbn [obind] in E0.
    destruct (first_ok s A HG Hcol Hends Hrows Hq Hd HNp re (nEL s) (el_elts s) (repeat c0 (num_terms * nE)) (conj R1 J1)) as (a & Ea & _ & Ha).
    { rewrite repeat_length. unfold nEL. apply Nat.mul_comm. } { rewrite Lr. exact Lz. }
    rewrite Ea in E0. cbn [obind] in E0. destruct (first_terms s re (bu_elts s) _) as [b| | |]; cbn [obind] in E0; try discriminate.
    assert (n0 = mknst (re, z) (z, z) (z, z) (z, z) a b) by congruence. subst n0. cbn [n_a n_prev fst]. apply Ha; exact He. }
  destruct (store1 nE (fun _ => false) (fun e => term s A 0 e)
     (fun b e => do x <- aread (fst (n_prev n0)) (e_row e * s_D s + e_col e); awrite b (e_idx e) (x, 0%R)) (el_elts s) (repeat c0 nE)) as (st0 & Es & Ls & Hs).
  { apply repeat_length. } { intros e He. apply R1; exact He. } { exact J1. }
  { intros e b He Lb. destruct (R1 e He) as (H1 & H2 & H3). destruct (i_prev _ _ _ _ _ _ I0) as [L1 _].
    assert (B : e_row e * s_D s + e_col e < s_nd s * s_nq s * s_D s) by (apply rm_lt; assumption).
    rewrite (aread_nth _ _ 0%R) by lia. cbn [obind]. rewrite <- (Hre e He). f_equal. apply (i_a _ _ _ _ _ _ I0); [ exact He | | lia ].
    apply nth_repeat. }
  assert (Es' : first_store s (fst (n_prev n0)) (el_elts s) (repeat c0 nE) = Ok st0) by exact Es. rewrite Es'. cbn [obind]. clear Es Es'.
  assert (G : forall k, k <= W -> exists t m, ofold (nm_step_t det (Some f, Some fb) s nc nch) (seq 0 k) (mktraced (mksolver n0 (fresh_pst nE) (fresh_pst nB) 0) st0 [(0, st0)]) = Ok t /\
     ofold (nm_step det (Some f, Some fb) s nc nch) (seq 0 k) (mksolver n0 (fresh_pst nE) (fresh_pst nB) 0) = Ok (t_v t) /\
     m <= k /\ good_state s A det m (t_v t) /\ tinv m t /\ (m = k \/ v_count (t_v t) = nE) /\
     rule s tensor iso states V C det f (el_elts s) m (v_el (t_v t)) /\ rule s tensor iso states V C det fb (bu_elts s) m (v_bu (t_v t))).
  { induction k as [|k IH]; intros Hk.
    - do 2 eexists. split; [ reflexivity | ]. cbn [t_v]. split; [ reflexivity | ]. split; [ apply le_n | ].
      split; [ apply (fresh_ok s A HG Hcol Hends Hq Hd HNp det f fb); exact I0 | ]. split; [ | split; [ left; reflexivity | cbn [v_el v_bu]; split; [ exact (rule_fresh s tensor iso Jm mx c states V C Hsys det f fb f _ _) | exact (rule_fresh s tensor iso Jm mx c states V C Hsys det f fb fb _ _) ] ] ].
      constructor; cbn [t_store t_blocks t_v v_el fresh_pst p_conv].
      + exact Ls.
      + reflexivity.
      + intros b [<-|[]]. exact Ls.
      + intros e He _. split; [ apply (Hs e He) | ]. intros b [<-|[]]. cbn [fst snd]. apply (Hs e He).
      + intros e He Hc. rewrite nth_repeat in Hc. discriminate.
    - destruct (IH ltac:(lia)) as (t & m & Et & Ev & Hm & Gs & TI & Hor & Q1 & Q2). rewrite seq_S, !ofold_app, Et, Ev. cbn [obind ofold plus].
      destruct (Nat.eq_dec (v_count (t_v t)) nE) as [Heq|Hne].
      + exists t, m. unfold nm_step_t at 1, nm_step at 1. rewrite Heq, Nat.eqb_refl. cbn [obind]. split; [ reflexivity | ]. split; [ reflexivity | ].
        split; [ lia | ]. split; [ exact Gs | ]. split; [ exact TI | ]. split; [ right; reflexivity | split; assumption ].
      + destruct Hor as [->|Hx]; [ | contradiction ].
        destruct (nm_step_t_ok k t ltac:(lia) Gs Hne TI Q1 Q2) as (t' & E1 & E2 & Gs' & TI' & Q1' & Q2'). rewrite E1, E2. cbn [obind].
        exists t', (S k). split; [ reflexivity | ]. split; [ reflexivity | ]. split; [ lia | ]. split; [ exact Gs' | ]. split; [ exact TI' | ]. split; [ left; reflexivity | split; assumption ]. }
  destruct (G W (le_n _)) as (t & m & Et & Ev & Hm & Gs & TI & Hor & _). exists t, m. auto 6.
Qed.
Lemma traced_eq U UBU : pade_method_traced det (Some f, Some fb) s U UBU =
  (do t <- pade_run_t det (Some f, Some fb) s nc nch; do U' <- report (v_el (t_v t)) (el_elts s) U; do UBU' <- report (v_bu (t_v t)) (bu_elts s) UBU; Ok (U', UBU', t_blocks t)).
Proof.
  unfold pade_method_traced. destruct (chunking_ok (zn (s_D s)) HD) as [Ec Hn]. rewrite Ec. cbn [obind].
  assert (Ench : Z.to_nat (zn (s_D s) / (2 ^ 28 / zn (s_D s)) + 1) = s_D s / nc + 1).
  { unfold ncn, zn in *. rewrite Z2Nat.inj_add by (try apply Z.div_pos; lia). rewrite Z2Nat.inj_div by lia. rewrite Nat2Z.id. reflexivity. }
  rewrite Ench. reflexivity.
Qed.
(* writing the file does not change the amplitudes *)
Lemma traced_same U UBU : pade_method_solve det (Some f, Some fb) s U UBU = (do r <- pade_method_traced det (Some f, Some fb) s U UBU; Ok (fst r)).
Proof.
  rewrite (solve_eq s tensor iso Jm mx c states V C Hsys HD det), traced_eq. destruct trace_run as (t & m & Et & Ev & _). rewrite Et, Ev. cbn [obind].
  destruct (report (v_el (t_v t)) (el_elts s) U) as [U1| | |]; cbn [obind]; try reflexivity.
  destruct (report (v_bu (t_v t)) (bu_elts s) UBU) as [U2| | |]; reflexivity.
Qed.
Lemma traced_blocks U UBU U' UBU' bl : pade_method_traced det (Some f, Some fb) s U UBU = Ok (U', UBU', bl) ->
  exists L, L <= 14 /\ map fst bl = seq 0 (2 * L + 1) /\ (forall b, In b bl -> length (snd b) = nE) /\
    forall e, In e (el_elts s) -> exists k b, k <= L /\ accepted_at det coef e b k /\ ((k < NM_max -> stopr s tensor iso states V C det f e k = true) /\ forall j, j < k -> stopr s tensor iso states V C det f e j = false) /\
      nth (e_idx e) U' c0 = PA det coef e b /\ forall x, In x bl -> nth (e_idx e) (snd x) c0 = term s A (min (fst x) (2 * k)) e.
Proof.
  rewrite traced_eq. destruct trace_run as (t & m & Et & _ & Hm & Gs & TI & _). rewrite Et. cbn [obind]. intros E.
  destruct (report (v_el (t_v t)) (el_elts s) U) as [U1| | |] eqn:EU; cbn [obind] in E; try discriminate.
  destruct (report (v_bu (t_v t)) (bu_elts s) UBU) as [U2| | |]; cbn [obind] in E; try discriminate.
  assert (U1 = U' /\ t_blocks t = bl) by (split; congruence). destruct H; subst U1 bl. clear E.
  destruct TI as [TL TN TLs TO TD]. pose proof Gel as [R1 J1].
  exists (m - 1). split; [ unfold W, NM_max in Hm; lia | ]. split; [ exact TN | ]. split; [ exact TLs | ]. intros e He.
  destruct (report_read _ _ _ _ J1 EU e He) as (b & B1 & B2).
  destruct (Bool.bool_dec (nth (e_idx e) (p_conv (v_el (t_v t))) false) true) as [Hc|Hc].
  - destruct (TD e He Hc) as (k & b' & D1 & D2 & D3 & D4 & D5 & D6 & D7). assert (b' = b) by congruence. subst b'.
    exists k, b. split; [ lia | ]. split; [ exact D4 | ]. split; [ exact D5 | ]. split; [ rewrite B2; exact D3 | exact D7 ].
  - apply Bool.not_true_is_false in Hc. destruct (proj1 (g_el _ _ _ _ _ Gs e He) Hc) as [Hn _]. congruence.
Qed.
End Run.
