(* Neumann iteration: one step, and a run of steps under any history of convergence flags. *)
From Coq Require Import Reals Lra ZifyBool.
From Verif Require Import Common ArrayLib PWModel SwpModel ResolventModel GridSpec GridPropsLemmas PermPropsLemmas PotentialModel PotentialSpec PotentialProofs PotentialPropsLemmas
  KernelModel KernelSpec KernelProofs KernelColProofs FaddeevModel FaddeevSpec FaddeevProofs.
Open Scope nat_scope.

Lemma in_enum {X} (l : list X) k x : In (k, x) (enum l) <-> nth_error l k = Some x.
Proof. unfold enum. rewrite in_combine_seq. rewrite Nat.sub_0_r. split; [ tauto | intros H; split; [ lia | exact H ] ]. Qed.
Lemma in_enum_nth {X} (l : list X) k x d : In (k, x) (enum l) -> k < length l /\ x = nth k l d /\ In x l.
Proof.
  intros H. apply in_enum in H. assert (k < length l) by (apply nth_error_Some; congruence).
  split; [ assumption | ]. split; [ symmetry; apply nth_error_nth; exact H | ]. eapply nth_error_In; exact H.
Qed.
Lemma enum_In {X} (l : list X) k d : k < length l -> In (k, nth k l d) (enum l).
Proof. intros H. apply in_enum. apply nth_error_nth'. exact H. Qed.

(* a loop over elements with different slots *)
Lemma store_loop (n : nat) (skip : elt -> bool) (val : elt -> cdouble) (t : nat) (F : list cdouble -> elt -> outcome (list cdouble)) l a :
  t < num_terms -> length a = n * num_terms ->
  (forall e, In e l -> e_idx e < n) -> (forall e e', In e l -> In e' l -> e_idx e = e_idx e' -> e = e') ->
  (forall e b, In e l -> length b = n * num_terms ->
     F b e = if skip e then Ok b else awrite b (e_idx e * num_terms + t) (val e)) ->
  exists a', ofold F l a = Ok a' /\ length a' = n * num_terms /\
    (forall e, In e l -> skip e = false -> nth (e_idx e * num_terms + t) a' c0 = val e) /\
    (forall i m, m < num_terms -> m <> t -> nth (i * num_terms + m) a' c0 = nth (i * num_terms + m) a c0).
Proof.
  intros Ht La Hlt Hinj HF.
  destruct (ofold_inv (fun done (b : list cdouble) => length b = n * num_terms /\
      (forall e, In e done -> skip e = false -> nth (e_idx e * num_terms + t) b c0 = val e) /\
      (forall i m, m < num_terms -> m <> t -> nth (i * num_terms + m) b c0 = nth (i * num_terms + m) a c0)) F l a) as (a' & E & H).
  - split; [ exact La | ]. split; [ intros e [] | reflexivity ].
  - intros dn e rest b Hl (Lb & H1 & H2).
    assert (Hin : In e l) by (rewrite Hl; apply in_or_app; right; left; reflexivity).
    rewrite (HF e b Hin Lb). destruct (skip e) eqn:Es.
    + exists b. split; [ reflexivity | ]. split; [ exact Lb | ]. split; [ | exact H2 ].
      intros e' He' Hs. apply in_app_or in He'. destruct He' as [He'|[<-|[]]]; [ apply H1; assumption | congruence ].
    + assert (B : e_idx e * num_terms + t < length b) by (rewrite Lb; apply rm_lt; [ apply Hlt; exact Hin | exact Ht ]).
      destruct (nth_awrite b _ (val e) c0 B) as (b' & Eb & Lb' & W & O). exists b'. split; [ exact Eb | ].
      split; [ congruence | ]. split.
      * intros e' He' Hs. apply in_app_or in He'. destruct He' as [He'|[<-|[]]]; [ | exact W ].
        destruct (Nat.eq_dec (e_idx e') (e_idx e)) as [Heq|Hne].
        -- assert (e' = e) by (apply Hinj; [ rewrite Hl; apply in_or_app; left; exact He' | exact Hin | exact Heq ]). subst e'. exact W.
        -- rewrite O; [ apply H1; assumption | ]. intros Heq. apply Hne. apply rm_inj in Heq; [ tauto | exact Ht | exact Ht ].
      * intros i m Hm Hne. rewrite O; [ apply H2; assumption | ]. intros Heq. apply Hne. apply rm_inj in Heq; [ tauto | exact Hm | exact Ht ].
  - exists a'. tauto.
Qed.

Lemma cadd_csum f g n : csum (fun k => cadd (f k) (g k)) n = cadd (csum f n) (csum g n).
Proof. unfold csum, cadd. cbn [fst snd]. rewrite !sum_plus. reflexivity. Qed.

Lemma cmul_rc_fst x a : fst (cmul x (rc a)) = (fst x * a)%R.
Proof. unfold cmul, rc. cbn [fst snd]. ring. Qed.
Lemma cmul_rc_snd x a : snd (cmul x (rc a)) = (snd x * a)%R.
Proof. unfold cmul, rc. cbn [fst snd]. ring. Qed.

Section Step.
Variables (s : fsys) (A : nat -> nat -> R).
Let D := s_D s.
Let nd := s_nd s.
Let nq := s_nq s.
Let nrows := nd * nq.
Hypothesis HG : length (s_G s) = nq * D.
Hypothesis Hcol : forall j, j < D -> exists col, kernel_col s j (repeat 0%R D) = Ok col /\ length col = D /\
  forall i, i < D -> nth i col 0%R = A i j.
Hypothesis Hends : s_breakup s = true -> (forall q, q < nq -> nth q (s_ends s) 0 <= nth (q + 1) (s_ends s) 0) /\ nth nq (s_ends s) 0 <= s_nBU s.
Hypothesis Hrows : forall z, length z = nd * nq * D -> exists rows, CPVC_rows (s_N s) (s_Nq s) (s_Np s) (s_CT s) (s_VC s) (s_P s) (s_d s) (s_q s) z = Ok rows /\
  length rows = length z /\ forall r k, r < nrows -> k < D -> nth (r * D + k) rows 0%R = A (row_state s r) k.
Hypothesis Hq : forall q, In q (s_q s) -> q < s_Nq s.
Hypothesis Hd : forall d, In d (s_d s) -> d < s_N s.
Hypothesis HNp : 0 < s_Np s.
Hypothesis Hcells : s_breakup s = true -> forall x, In x (s_cells s) -> valid3 (s_N s) (s_Nq s) (s_Np s) x.

(* ---------- the elements ---------- *)
Lemma in_el e : In e (el_elts s) <-> exists dr dc q, dr < nd /\ dc < nd /\ q < nq /\
  e = mkelt (dr * nd * nq + dc * nq + q) (dr * nq + q) (idx3 (s_Nq s) (s_Np s) (nth dc (s_d s) 0, nth q (s_q s) 0, 0)).
Proof.
  unfold el_elts. rewrite in_flat_map. split.
  - intros (dr & Hdr & H). apply in_flat_map in H. destruct H as ([dc dv] & Hdc & H). apply in_map_iff in H. destruct H as ([q qv] & <- & Hqi).
    apply in_seq in Hdr. destruct (in_enum_nth _ _ _ 0 Hdc) as (H1 & -> & _). destruct (in_enum_nth _ _ _ 0 Hqi) as (H2 & -> & _).
    exists dr, dc, q. cbn [fst snd]. split; [ fold nd; lia | ]. split; [ exact H1 | ]. split; [ exact H2 | ]. f_equal. cbn. ring.
  - intros (dr & dc & q & H1 & H2 & H3 & ->). exists dr. split; [ apply in_seq; fold nd; lia | ].
    apply in_flat_map. exists (dc, nth dc (s_d s) 0). split; [ apply enum_In; exact H2 | ].
    apply in_map_iff. exists (q, nth q (s_q s) 0). split; [ cbn [fst snd]; f_equal; cbn; ring | ]. apply enum_In. exact H3.
Qed.
Lemma in_bu e : In e (bu_elts s) <-> s_breakup s = true /\ exists dr q b, dr < nd /\ q < nq /\ In b (bu_range s q) /\
  e = mkelt (dr * s_nBU s + b) (dr * nq + q) (idx3 (s_Nq s) (s_Np s) (nth b (s_cells s) (0, 0, 0))).
Proof.
  unfold bu_elts. destruct (Bool.bool_dec (s_breakup s) true) as [Eb|Eb].
  2:{ pose proof (Bool.not_true_is_false _ Eb) as Ef. rewrite Ef. split; [ intros [] | intros [H _]; discriminate ]. }
  rewrite Eb. rewrite in_flat_map. split.
  - intros (q & Hqi & H). split; [ reflexivity | ]. apply in_flat_map in H. destruct H as (dr & Hdr & H). apply in_map_iff in H. destruct H as (b & <- & Hb).
    apply in_seq in Hqi, Hdr. exists dr, q, b. split; [ fold nd in Hdr; lia | ]. split; [ fold nq in Hqi; lia | ]. split; [ exact Hb | ].
    destruct (nth b (s_cells s) (0, 0, 0)) as [[al qi] pi]. f_equal. cbn. ring.
  - intros (_ & dr & q & b & H1 & H2 & H3 & ->). exists q. split; [ apply in_seq; fold nq; lia | ].
    apply in_flat_map. exists dr. split; [ apply in_seq; fold nd; lia | ]. apply in_map_iff. exists b. split; [ | exact H3 ].
    destruct (nth b (s_cells s) (0, 0, 0)) as [[al qi] pi]. f_equal. cbn. ring.
Qed.
Lemma ends_mono i j : s_breakup s = true -> i <= j <= nq -> nth i (s_ends s) 0 <= nth j (s_ends s) 0.
Proof.
  intros Hb [Hij Hj]. destruct (Hends Hb) as [Hm _]. clear -Hij Hj Hm. induction Hij as [|j Hij IH]; [ lia | ].
  specialize (IH ltac:(lia)). specialize (Hm j ltac:(lia)). rewrite Nat.add_1_r in Hm. lia.
Qed.

Definition nEL := nd * nd * nq.
Definition nBU := if s_breakup s then nd * s_nBU s else 0.
Definition good (n : nat) (l : list elt) : Prop :=
  (forall e, In e l -> e_idx e < n /\ e_row e < nrows /\ e_col e < D) /\
  (forall e e', In e l -> In e' l -> e_idx e = e_idx e' -> e = e').
Lemma good_el : good nEL (el_elts s).
Proof.
  split.
  - intros e He. apply in_el in He. destruct He as (dr & dc & q & H1 & H2 & H3 & ->). cbn [e_idx e_row e_col]. split.
    + unfold nEL. rewrite <- Nat.mul_add_distr_r. apply rm_lt; [ | exact H3 ]. apply rm_lt; assumption.
    + split; [ apply rm_lt; assumption | ]. unfold D, s_D. apply idx3_lt. cbn. split; [ apply Hd, nth_In; exact H2 | ].
      split; [ apply Hq, nth_In; exact H3 | exact HNp ].
  - intros e e' He He' Heq. apply in_el in He, He'. destruct He as (dr & dc & q & H1 & H2 & H3 & ->).
    destruct He' as (dr' & dc' & q' & H1' & H2' & H3' & ->). cbn [e_idx] in Heq. rewrite <- !Nat.mul_add_distr_r in Heq.
    apply rm_inj in Heq; [ | assumption.. ]. destruct Heq as [Heq ->]. apply rm_inj in Heq; [ | assumption.. ]. destruct Heq as [-> ->]. reflexivity.
Qed.
Lemma good_bu : good nBU (bu_elts s).
Proof.
  assert (Hlt : forall q b, s_breakup s = true -> q < nq -> In b (bu_range s q) -> b < s_nBU s).
  { intros q b Hb Hqn Hin. unfold bu_range in Hin. apply in_seq in Hin. destruct (Hends Hb) as [Hm Hl].
    pose proof (Hm q Hqn) as X1. pose proof (ends_mono (q + 1) nq Hb ltac:(lia)) as X2. lia. }
  split.
  - intros e He. apply in_bu in He. destruct He as (Hb & dr & q & b & H1 & H2 & H3 & ->). cbn [e_idx e_row e_col].
    pose proof (Hlt q b Hb H2 H3) as Hbl. unfold nBU. rewrite Hb. split; [ apply rm_lt; assumption | ].
    split; [ apply rm_lt; assumption | ]. unfold D, s_D. apply idx3_lt. apply (Hcells Hb). apply nth_In. exact Hbl.
  - intros e e' He He' Heq. apply in_bu in He, He'. destruct He as (Hb & dr & q & b & H1 & H2 & H3 & ->).
    destruct He' as (_ & dr' & q' & b' & H1' & H2' & H3' & ->). cbn [e_idx] in Heq.
    apply rm_inj in Heq; [ | exact (Hlt q b Hb H2 H3) | exact (Hlt q' b' Hb H2' H3') ]. destruct Heq as [-> <-].
    assert (q = q').
    { unfold bu_range in H3, H3'. apply in_seq in H3, H3'.
      destruct (Nat.lt_trichotomy q q') as [Hl|[He|Hl]]; [ | exact He | ]; exfalso.
      - pose proof (ends_mono (q + 1) q' Hb ltac:(lia)). lia.
      - pose proof (ends_mono (q' + 1) q Hb ltac:(lia)). lia. }
    subst q'. reflexivity.
Qed.
(* an unconverged element keeps its row alive *)
Lemma el_row conv convbu e : In e (el_elts s) -> nth (e_idx e) conv false = false ->
  exists d q, d < nd /\ q < nq /\ e_row e = d * nq + q /\ rowdone s conv convbu d q = false.
Proof.
  intros He Hf. apply in_el in He. destruct He as (dr & dc & q & H1 & H2 & H3 & ->). cbn [e_idx e_row] in *.
  exists dr, q. split; [ exact H1 | ]. split; [ exact H3 | ]. split; [ reflexivity | ].
  unfold rowdone. apply andb_false_iff. left. apply not_true_is_false. intros Ht. rewrite forallb_forall in Ht.
  rewrite (Ht (dr * nd * nq + dc * nq + q)) in Hf; [ discriminate | ]. unfold row_els. apply in_map_iff. exists dc.
  split; [ reflexivity | apply in_seq; fold nd; lia ].
Qed.
Lemma bu_row conv convbu e : In e (bu_elts s) -> nth (e_idx e) convbu false = false ->
  exists d q, d < nd /\ q < nq /\ e_row e = d * nq + q /\ rowdone s conv convbu d q = false.
Proof.
  intros He Hf. apply in_bu in He. destruct He as (Hb & dr & q & b & H1 & H2 & H3 & ->). cbn [e_idx e_row] in *.
  exists dr, q. split; [ exact H1 | ]. split; [ exact H2 | ]. split; [ reflexivity | ].
  unfold rowdone. apply andb_false_iff. right. apply not_true_is_false. intros Ht. rewrite forallb_forall in Ht.
  rewrite (Ht (dr * s_nBU s + b)) in Hf; [ discriminate | ]. unfold row_bus. rewrite Hb. apply in_map_iff. exists b.
  split; [ reflexivity | exact H3 ].
Qed.

(* ---------- the invariant ---------- *)
Definition nrow (n r k : nat) : cdouble := neumann D A (row_G s r) n (row_state s r) k.
Record inv (n : nat) (conv convbu : list bool) (st : nst) : Prop := mkinv {
  i_prev : len2 (n_prev st) (nrows * D);
  i_cur : len2 (n_cur st) (nrows * D);
  i_comp : len2 (n_comp st) (nrows * D);
  i_prod : len2 (n_prod st) (nrows * D);
  i_la : length (n_a st) = nEL * num_terms;
  i_lbu : length (n_abu st) = nBU * num_terms;
  i_row : forall d q k, d < nd -> q < nq -> k < D -> rowdone s conv convbu d q = false ->
    cell (n_prev st) ((d * nq + q) * D + k) = nrow n (d * nq + q) k;
  i_a : forall e m, In e (el_elts s) -> nth (e_idx e) conv false = false -> m <= n ->
    nth (e_idx e * num_terms + m) (n_a st) c0 = term s A m e;
  i_abu : forall e m, In e (bu_elts s) -> nth (e_idx e) convbu false = false -> m <= n ->
    nth (e_idx e * num_terms + m) (n_abu st) c0 = term s A m e }.

Definition grows (c c' : list bool) : Prop := forall i, nth i c false = true -> nth i c' false = true.
Lemma rowdone_grows c b c' b' d q : grows c c' -> grows b b' -> rowdone s c' b' d q = false -> rowdone s c b d q = false.
Proof.
  intros H1 H2 Hf. unfold rowdone in *. apply not_true_is_false. intros Ht. apply andb_true_iff in Ht. destruct Ht as [T1 T2].
  rewrite forallb_forall in T1, T2. apply andb_false_iff in Hf. destruct Hf as [Hf|Hf]; apply not_true_iff_false in Hf; apply Hf; apply forallb_forall; intros x Hx.
  - apply H1, T1, Hx.
  - apply H2, T2, Hx.
Qed.
Lemma grows_false c c' i : grows c c' -> nth i c' false = false -> nth i c false = false.
Proof. intros H Hf. apply not_true_is_false. intros Ht. rewrite (H i Ht) in Hf. discriminate. Qed.
Lemma inv_grows n c b c' b' st : grows c c' -> grows b b' -> inv n c b st -> inv n c' b' st.
Proof.
  intros H1 H2 [P1 P2 P3 P4 P5 P6 P7 P8 P9]. constructor; try assumption.
  - intros d q k Hdn Hqn Hk Hf. apply P7; try assumption. exact (rowdone_grows c b c' b' d q H1 H2 Hf).
  - intros e m He Hf Hm. apply P8; try assumption. exact (grows_false _ _ _ H1 Hf).
  - intros e m He Hf Hm. apply P9; try assumption. exact (grows_false _ _ _ H2 Hf).
Qed.

Lemma extract_ok conv cur t n l a : good n l -> t < num_terms -> length conv = n -> length a = n * num_terms -> len2 cur (nrows * D) ->
  exists a', extract_terms s conv cur t l a = Ok a' /\ length a' = n * num_terms /\
    (forall e, In e l -> nth (e_idx e) conv false = false -> nth (e_idx e * num_terms + t) a' c0 = (cell cur (e_row e * D + e_col e))) /\
    (forall i m, m < num_terms -> m <> t -> nth (i * num_terms + m) a' c0 = nth (i * num_terms + m) a c0).
Proof.
  intros [Hr Hi] Ht Lc La [L1 L2]. unfold extract_terms.
  apply (store_loop n (fun e => nth (e_idx e) conv false) (fun e => cell cur (e_row e * D + e_col e)) t); try assumption.
  - intros e He. apply Hr, He.
  - intros e b He Lb. destruct (Hr e He) as (H1 & H2 & H3).
    destruct (aread_ok conv (e_idx e)) as (c & Ec & Nc); [ lia | ]. rewrite Ec. cbn [obind].
    rewrite (nth_error_nth _ _ false Nc). destruct c; [ reflexivity | ]. fold D.
    assert (B : e_row e * D + e_col e < nrows * D) by (apply rm_lt; assumption).
    rewrite !areadn by lia. cbn [obind]. reflexivity.
Qed.

Lemma rdot_neumann comp p n r c : (forall k, k < D -> cell comp (p * D + k) = cmul (nrow n r k) (row_G s r k)) ->
  (rdot s A (fst comp) p c, rdot s A (snd comp) p c) = nrow (S n) r c.
Proof.
  intros H. unfold nrow. cbn [neumann]. unfold csum, rdot. fold D. f_equal; apply sum_ext; intros k Hk; specialize (H k Hk); unfold cell in H;
    rewrite (surjective_pairing (cmul (nrow n r k) (row_G s r k))) in H; injection H as E1 E2.
  - rewrite E1, cmul_rc_fst. reflexivity.
  - rewrite E2, cmul_rc_snd. reflexivity.
Qed.

Lemma step_ok nc conv convbu st n : 0 < nc -> S n < num_terms -> conv_ok s conv convbu -> inv n conv convbu st ->
  exists st', neumann_step s nc (D / nc + 1) conv convbu st (S n) = Ok st' /\ inv (S n) conv convbu st'.
Proof.
  intros Hnc Hn Hc [P1 P2 P3 P4 P5 P6 P7 P8 P9]. unfold neumann_step.
  destruct (mult_G_ok s A HG Hcol (n_prev st) P1) as (prev & E1 & L1 & H1). rewrite E1. cbn [obind].
  destruct (compact_ok s A HG Hcol Hends conv convbu prev (n_comp st) Hc L1 P3) as (comp & index & E2 & L2 & Hix & H2). rewrite E2. cbn [obind].
  assert (Hil : length index <= nrows).
  { rewrite Hix. apply Nat.le_trans with (length (nest nd nq)); [ exact (pending_length s A HG Hcol Hends conv convbu (nest nd nq)) | ].
    rewrite (nest_length s A HG Hcol Hends). apply le_n. }
  destruct (chunks_ok s A HG Hcol Hends nc (length index) comp (n_prod st) Hnc Hil L2 P4) as (prod & E3 & L3 & H3). fold D in E3. rewrite E3. cbn [obind].
  assert (Hnd : NoDup index) by (rewrite Hix; apply pending_NoDup).
  assert (Hlt : forall r, In r index -> r < nrows) by (intros r Hr; rewrite Hix in Hr; exact (pending_lt s conv convbu r Hr)).
  destruct (write_back_ok s A HG Hcol Hends prod index (n_cur st) L3 P2 Hnd Hlt Hil) as (cur & E4 & L4 & H4). rewrite E4. cbn [obind].
  assert (Hcur : forall d q k, d < nd -> q < nq -> k < D -> rowdone s conv convbu d q = false ->
     cell cur ((d * nq + q) * D + k) = nrow (S n) (d * nq + q) k).
  { intros d q k Hdn Hqn Hk Hf. pose proof (in_pending s conv convbu d q Hdn Hqn Hf) as Hin. rewrite <- Hix in Hin.
    destruct (In_nth _ _ 0 Hin) as (p & Hp & Ep). fold nq in Ep. rewrite <- Ep. fold D in H4. rewrite (H4 p k Hp Hk). fold D in H3. rewrite (H3 p k Hp Hk).
    apply rdot_neumann. intros k' Hk'. fold D in H2. rewrite (H2 p k' Hp Hk'). rewrite Ep. fold D in H1.
    rewrite H1 by (exact Hk' || (apply rm_lt; assumption)). f_equal. apply P7; assumption. }
  destruct Hc as [C1 C2].
  destruct (extract_ok conv cur (S n) nEL (el_elts s) (n_a st) good_el Hn C1 P5 L4) as (a & E5 & L5 & H5 & O5). rewrite E5. cbn [obind].
  destruct (extract_ok convbu cur (S n) nBU (bu_elts s) (n_abu st) good_bu Hn C2 P6 L4) as (b & E6 & L6 & H6 & O6). rewrite E6. cbn [obind].
  eexists. split; [ reflexivity | ]. constructor; cbn [n_prev n_cur n_comp n_prod n_a n_abu]; try assumption.
  - intros e m He Hf Hm. destruct (Nat.eq_dec m (S n)) as [->|Hne].
    + rewrite H5 by assumption. destruct (el_row conv convbu e He Hf) as (d & q & Hdn & Hqn & Er & Hrd). 
      unfold term. fold D. rewrite Er. apply Hcur; try assumption. apply good_el. exact He.
    + rewrite O5 by lia. apply P8; try assumption. lia.
  - intros e m He Hf Hm. destruct (Nat.eq_dec m (S n)) as [->|Hne].
    + rewrite H6 by assumption. destruct (bu_row conv convbu e He Hf) as (d & q & Hdn & Hqn & Er & Hrd). 
      unfold term. fold D. rewrite Er. apply Hcur; try assumption. apply good_bu. exact He.
    + rewrite O6 by lia. apply P9; try assumption. lia.
Qed.

Lemma first_ok re n l a : good n l -> length a = n * num_terms -> length re = nrows * D ->
  exists a', first_terms s re l a = Ok a' /\ length a' = n * num_terms /\
    (forall e, In e l -> nth (e_idx e * num_terms + 0) a' c0 = (nth (e_row e * D + e_col e) re 0%R, 0%R)).
Proof.
  intros [Hr Hi] La L1. unfold first_terms.
  destruct (store_loop n (fun _ => false) (fun e => (nth (e_row e * D + e_col e) re 0%R, 0%R) : cdouble) 0
     (fun a e => do x <- aread re (e_row e * s_D s + e_col e); awrite a (e_idx e * num_terms + 0) (x, 0%R)) l a) as (a' & E & L & H & _).
  - unfold num_terms. lia.
  - exact La.
  - intros e He. apply Hr, He.
  - exact Hi.
  - intros e b He Lb. destruct (Hr e He) as (H1 & H2 & H3). fold D.
    assert (B : e_row e * D + e_col e < nrows * D) by (apply rm_lt; assumption).
    rewrite areadn by lia. cbn [obind]. reflexivity.
  - exists a'. split; [ exact E | ]. split; [ exact L | ]. intros e He. apply H; [ exact He | reflexivity ].
Qed.

Lemma init_ok conv convbu : exists st, neumann_init s = Ok st /\ inv 0 conv convbu st.
Proof.
  unfold neumann_init. set (z := repeat 0%R (s_D s * (s_nd s * s_nq s))).
  assert (Lz : length z = nd * nq * D) by (unfold z; rewrite repeat_length; fold D nd nq; apply Nat.mul_comm).
  destruct (Hrows z Lz) as (re & E & L & H). rewrite E. cbn [obind].
  destruct (first_ok re nEL (el_elts s) (repeat c0 (num_terms * (s_nd s * s_nd s * s_nq s))) good_el) as (a & Ea & La & Ha).
  { rewrite repeat_length. unfold nEL. fold nd nq. apply Nat.mul_comm. }
  { rewrite L. exact Lz. }
  rewrite Ea. cbn [obind].
  destruct (first_ok re nBU (bu_elts s) (repeat c0 (num_terms * (if s_breakup s then s_nd s * s_nBU s else 0))) good_bu) as (b & Eb & Lb & Hb).
  { rewrite repeat_length. unfold nBU. fold nd. apply Nat.mul_comm. }
  { rewrite L. exact Lz. }
  rewrite Eb. cbn [obind]. eexists. split; [ reflexivity | ].
  assert (Z2 : len2 (z, z) (nrows * D)) by (split; exact Lz).
  constructor; cbn [n_prev n_cur n_comp n_prod n_a n_abu]; try assumption.
  - split; [ cbn [fst]; rewrite L; exact Lz | exact Lz ].
  - intros d q k Hdn Hqn Hk _. unfold cell, nrow. cbn [fst snd neumann]. rewrite H by (exact Hk || (apply rm_lt; assumption)).
    unfold z. rewrite zeros_nth. reflexivity.
  - intros e m He _ Hm. assert (m = 0) by lia. subst m. rewrite Ha by exact He. destruct (proj1 good_el e He) as (_ & G2 & G3).
    rewrite H by assumption. reflexivity.
  - intros e m He _ Hm. assert (m = 0) by lia. subst m. rewrite Hb by exact He. destruct (proj1 good_bu e He) as (_ & G2 & G3).
    rewrite H by assumption. reflexivity.
Qed.

(* a run of steps under a history of flags *)
Lemma history_ok nc (h : nat -> list bool * list bool) n : 0 < nc -> n < num_terms ->
  (forall m, conv_ok s (fst (h m)) (snd (h m))) ->
  (forall m, grows (fst (h m)) (fst (h (S m))) /\ grows (snd (h m)) (snd (h (S m)))) ->
  exists st0 st, neumann_init s = Ok st0 /\
    ofold (fun st k => neumann_step s nc (D / nc + 1) (fst (h k)) (snd (h k)) st k) (seq 1 n) st0 = Ok st /\ inv n (fst (h n)) (snd (h n)) st.
Proof.
  intros Hnc Hn Hc Hm. destruct (init_ok (fst (h 0)) (snd (h 0))) as (st0 & E0 & I0). exists st0.
  induction n as [|n IH].
  - exists st0. split; [ exact E0 | ]. split; [ reflexivity | exact I0 ].
  - destruct (IH ltac:(lia)) as (st & _ & E & I). destruct (Hm n) as [M1 M2].
    pose proof (inv_grows n _ _ _ _ st M1 M2 I) as I'.
    destruct (step_ok nc (fst (h (S n))) (snd (h (S n))) st n Hnc Hn (Hc (S n)) I') as (st' & E' & I'').
    exists st'. split; [ exact E0 | ]. split; [ | exact I'' ]. rewrite seq_S, ofold_app, E. cbn [obind ofold plus]. rewrite E'. reflexivity.
Qed.
End Step.
