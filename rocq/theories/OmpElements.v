(* The loop that computes the permutation matrix. *)
From Coq Require Import String Reals Permutation.
From Verif Require Import Common ArrayLib NameModel PioModel PioSpec OmpModel OmpProofs OmpRegions OmpSerial.
From Verif Require PRunModel PRunProofs.
Open Scope nat_scope.
Open Scope list_scope.

Lemma eloc_eqb_spec : forall a b, reflect (a = b) (eloc_eqb a b).
Proof.
  intros a b. destruct a as [t|t|t|t k|n], b as [u|u|u|u j|r]; cbn; try (constructor; discriminate).
  - destruct (Nat.eqb_spec t u); constructor; congruence.
  - destruct (Nat.eqb_spec t u); constructor; congruence.
  - destruct (Nat.eqb_spec t u); constructor; congruence.
  - destruct (Nat.eqb_spec t u), (Nat.eqb_spec k j); cbn; constructor; congruence.
  - destruct (String.eqb_spec n r); constructor; congruence.
Qed.

Section Elements.
Variable V : Type.
Variable vzero : V -> bool.
Variables (Nalpha Np Nq : nat).
Variable ovl : nat -> nat -> nat -> nat -> bool.
Variable value : nat -> nat -> nat -> nat -> nat -> nat -> V.
Variable name_of : nat -> nat -> string.
Variable sp : space V.
Variables (B T : nat).
Notation push := (push V name_of sp B).
Notation emit := (emit V name_of sp B).
Notation work := (work V vzero Nalpha Np Nq ovl value).
Notation body := (elem_body V vzero Nalpha Np Nq ovl value name_of sp B T).
Notation mem_ := (mem V).

Definition represents (m : memory eloc (evalue V)) (M : mem_) : Prop :=
  length (m_th V M) = T /\
  (forall t th, nth_error (m_th V M) t = Some th ->
     m (Dim t) = Some (VNat (t_dim V th)) /\ m (Tfc t) = Some (VNat (t_tfc V th)) /\
     forall k, m (Buf t k) = option_map VElem (nth_error (t_buf V th) k)) /\
  (forall n, m (File n) = Some (VFile (m_fs V M n))).
Definition view (m : memory eloc (evalue V)) (M : mem_) : Prop :=
  represents m M /\ (forall t, t < T -> exists c, m (Cnt t) = Some (VNat c)).

Lemma read_buf t buf (m : memory eloc (evalue V)) : (forall k, m (Buf t k) = option_map VElem (nth_error buf k)) ->
  forall n j pre, j + n <= length buf ->
  run eloc_eqb (afold (fun l k => Rd (Buf t k) (fun v => match v with VElem x => ret (l ++ [x]) | _ => Done UB end)) (seq j n) pre) m
  = (Ok (pre ++ firstn n (skipn j buf)), m).
Proof.
  intros Hm. induction n as [|n IH]; intros j pre Hn; cbn [seq afold].
  - cbn. rewrite app_nil_r. reflexivity.
  - cbn [abind run]. rewrite Hm. destruct (nth_error buf j) as [x|] eqn:Ex; [ | apply nth_error_None in Ex; lia ].
    cbn [option_map abind ret]. rewrite IH by lia. f_equal. f_equal. rewrite <- app_assoc. f_equal.
    clear -Ex. revert buf Ex. induction j as [|j IH]; intros [|y buf] Ex; cbn in *; try discriminate; [ congruence | ]. exact (IH buf Ex).
Qed.
Lemma new_file_ok fs buf dim name fs' : store_h5 V fs buf dim sp name = Ok fs' -> dim <= length buf /\
  exists f, new_file V sp (firstn dim buf) dim name = Ok (Some f) /\ fs' = fs_write V fs name f.
Proof.
  unfold new_file, store_h5. destruct (head_JP (sp_pw V sp)) as [[J P]| | |]; cbn [obind]; try discriminate.
  destruct (negb (name_fits name)); try discriminate. destruct (Nat.ltb_spec (length buf) dim); try discriminate.
  rewrite firstn_length_le by assumption. rewrite Nat.ltb_irrefl.
  destruct (_ || _)%bool; try discriminate. rewrite firstn_firstn, Nat.min_id. intros E. split; [ assumption | ].
  eexists. split; [ cbn [obind]; unfold fs_write at 1; rewrite String.eqb_refl; reflexivity | congruence ].
Qed.

Ltac upd := repeat (rewrite (update_same eloc_eqb eloc_eqb_spec) || (rewrite (update_other eloc_eqb eloc_eqb_spec) by (discriminate || congruence))).
Lemma emit_sim t e : sim eloc_eqb view (fun _ : unit => True) (emit t e) (fun M => push M (t, e)).
Proof.
  intros m M M' [(HT & Hth & Hf) Hc] E. unfold PioModel.push in E.
  destruct (aread (m_th V M) t) as [th| | |] eqn:Et; try discriminate. cbn [obind] in E.
  destruct (awrite (t_buf V th) (t_dim V th) e) as [buf| | |] eqn:Eb; try discriminate. cbn [obind] in E.
  assert (Nt : nth_error (m_th V M) t = Some th) by (unfold aread in Et; destruct (nth_error (m_th V M) t); congruence).
  destruct (Hth t th Nt) as (Hd & Hk & Hb).
  destruct (awrite_inv _ _ _ _ Eb) as (Lb & Lb' & Nb & Ob).
  assert (Al : exists x, m (Buf t (t_dim V th)) = Some x).
  { rewrite Hb. destruct (nth_error (t_buf V th) (t_dim V th)) as [x|] eqn:Ex; [ exists (VElem x); reflexivity | apply nth_error_None in Ex; lia ]. }
  destruct Al as (x0 & Al).
  unfold OmpModel.emit, rdN. cbn [run]. rewrite Hd. cbn [run]. rewrite Al.
  set (d := t_dim V th) in *. set (m1 := update eloc_eqb m (Buf t d) (VElem e)).
  assert (D1 : m1 (Dim t) = Some (VNat d)) by (unfold m1; upd; exact Hd). rewrite D1.
  set (m2 := update eloc_eqb m1 (Dim t) (VNat (d + 1))).
  assert (T2 : m2 (Tfc t) = Some (VNat (t_tfc V th))) by (unfold m2, m1; upd; exact Hk). rewrite T2.
  assert (B2 : forall k, m2 (Buf t k) = option_map VElem (nth_error buf k)).
  { intros k. unfold m2, m1. upd. destruct (Nat.eq_dec k d) as [->|Hn]; [ upd; rewrite Nb; reflexivity | ].
    rewrite (update_other eloc_eqb eloc_eqb_spec) by congruence. rewrite Hb, (Ob k Hn). reflexivity. }
  assert (O2 : forall l, (forall u, l <> Dim u) -> (forall u k, l <> Buf u k) -> m2 l = m l).
  { intros l H1 H2. unfold m2, m1. rewrite !(update_other eloc_eqb eloc_eqb_spec) by auto. reflexivity. }
  assert (U2 : forall u, u <> t -> m2 (Dim u) = m (Dim u) /\ forall k, m2 (Buf u k) = m (Buf u k)).
  { intros u Hu. unfold m2, m1. split; [ | intros k ]; upd; reflexivity. }
  destruct (Nat.leb_spec B (d + 1)) as [HB|HB].
  - destruct (store_h5 V (m_fs V M) buf (d + 1) sp (name_of t (t_tfc V th))) as [fs| | |] eqn:Es; try discriminate. cbn [obind] in E.
    destruct (awrite (m_th V M) t (mkth V buf 0 (t_tfc V th + 1))) as [ths| | |] eqn:Ew; try discriminate. cbn [obind] in E.
    assert (EM : M' = mkmem V ths fs) by congruence. subst M'.
    destruct (new_file_ok _ _ _ _ _ Es) as (Ld & f & Nf & ->).
    rewrite (run_bind_ok eloc_eqb _ _ _ _ _ (read_buf t buf m2 B2 (d + 1) 0 [] Ld)). cbn [app skipn]. rewrite Nf. cbn [abind run].
    assert (F2 : m2 (File (name_of t (t_tfc V th))) = Some (VFile (m_fs V M (name_of t (t_tfc V th))))) by (unfold m2, m1; upd; apply Hf).
    rewrite F2. set (m3 := update eloc_eqb m2 (File (name_of t (t_tfc V th))) (VFile (Some f))).
    assert (D3 : m3 (Dim t) = Some (VNat (d + 1))) by (unfold m3, m2; upd; reflexivity). rewrite D3.
    set (m4 := update eloc_eqb m3 (Dim t) (VNat 0)).
    assert (T4 : m4 (Tfc t) = Some (VNat (t_tfc V th))) by (unfold m4, m3; upd; exact T2). rewrite T4. cbn [run]. rewrite T4.
    exists tt, (update eloc_eqb m4 (Tfc t) (VNat (t_tfc V th + 1))). split; [ reflexivity | ]. split; [ exact I | ].
    destruct (awrite_inv _ _ _ _ Ew) as (Lw & Lw' & Nw & Ow). unfold view, represents. cbn [m_th m_fs].
    split; [ split; [ congruence | split ] | ].
    + intros u th' Hu. destruct (Nat.eq_dec u t) as [->|Hn].
      * assert (th' = mkth V buf 0 (t_tfc V th + 1)) by congruence. subst th'. cbn [t_dim t_tfc t_buf].
        unfold m4, m3. upd. split; [ reflexivity | ]. split; [ reflexivity | ]. intros k. upd. apply B2.
      * rewrite (Ow u Hn) in Hu. destruct (Hth u th' Hu) as (G1 & G2 & G3). destruct (U2 u Hn) as [U3 U4]. unfold m4, m3. upd.
        split; [ rewrite U3; exact G1 | ]. split; [ rewrite O2 by discriminate; exact G2 | ]. intros k. upd. rewrite U4. apply G3.
    + intros n. unfold m4, m3. upd. unfold fs_write. destruct (String.eqb_spec n (name_of t (t_tfc V th))) as [->|Hn]; upd; [ reflexivity | ].
      rewrite O2 by discriminate. apply Hf.
    + intros u Hu. unfold m4, m3. upd. rewrite O2 by discriminate. exact (Hc u Hu).
  - destruct (awrite (m_th V M) t (mkth V buf (d + 1) (t_tfc V th))) as [ths| | |] eqn:Ew; try discriminate. cbn [obind] in E.
    assert (EM : M' = mkmem V ths (m_fs V M)) by congruence. subst M'. cbn [run ret].
    exists tt, m2. split; [ reflexivity | ]. split; [ exact I | ].
    destruct (awrite_inv _ _ _ _ Ew) as (Lw & Lw' & Nw & Ow). unfold view, represents. cbn [m_th m_fs].
    split; [ split; [ congruence | split ] | ].
    + intros u th' Hu. destruct (Nat.eq_dec u t) as [->|Hn].
      * assert (th' = mkth V buf (d + 1) (t_tfc V th)) by congruence. subst th'. cbn [t_dim t_tfc t_buf].
        split; [ unfold m2; upd; reflexivity | ]. split; [ exact T2 | exact B2 ].
      * rewrite (Ow u Hn) in Hu. destruct (Hth u th' Hu) as (G1 & G2 & G3). destruct (U2 u Hn) as [U3 U4].
        split; [ rewrite U3; exact G1 | ]. split; [ rewrite O2 by discriminate; exact G2 | ]. intros k. rewrite U4. apply G3.
    + intros n. rewrite O2 by discriminate. apply Hf.
    + intros u Hu. rewrite O2 by discriminate. exact (Hc u Hu).
Qed.

(* progress counters leave the rest alone *)
Lemma tick_sim t : t < T -> sim eloc_eqb view (fun _ : unit => True) (rdN (Cnt t) (fun c => Wr (Cnt t) (VNat (c + 1)) (ret tt))) (fun M => Ok M).
Proof.
  intros Ht m M M' [(HT & Hth & Hf) Hc] E. assert (M' = M) by congruence. subst M'. destruct (Hc t Ht) as (c & Ec).
  unfold rdN. cbn [run]. rewrite Ec. cbn [run]. rewrite Ec. eexists tt, _. split; [ reflexivity | ]. split; [ exact I | ].
  split; [ split; [ exact HT | split ] | ].
  - intros u th Hu. destruct (Hth u th Hu) as (G1 & G2 & G3). upd. split; [ exact G1 | ]. split; [ exact G2 | ]. intros k. upd. apply G3.
  - intros n. upd. apply Hf.
  - intros u Hu. destruct (Nat.eq_dec u t) as [->|Hn]; [ upd; exists (c + 1); reflexivity | ]. rewrite (update_other eloc_eqb eloc_eqb_spec) by congruence. apply Hc, Hu.
Qed.
Lemma count_sim : forall n j, j + n <= T ->
  sim eloc_eqb view (fun _ : unit => True) (afold (fun _ i => Rd (Cnt i) (fun _ => ret tt)) (seq j n) tt) (fun M => Ok M).
Proof.
  induction n as [|n IH]; intros j Hj; [ apply sim_ret; exact I | ].
  intros m M M' Hv E. destruct (proj2 Hv j) as (c & Ec); [ lia | ]. cbn [seq afold abind run]. rewrite Ec. cbn [abind ret].
  exact (IH (S j) ltac:(lia) m M M' Hv E).
Qed.
Definition pushes (t : nat) (es : list (elem V)) (M : mem_) : outcome mem_ := ofold push (map (pair t) es) M.
Lemma pushes_nil t M : pushes t [] M = Ok M. Proof. reflexivity. Qed.
Lemma pushes_app t a b M : pushes t (a ++ b) M = (do M' <- pushes t a M; pushes t b M').
Proof. unfold pushes. rewrite map_app, ofold_app. reflexivity. Qed.
Lemma sim_flat {X} t (f : unit -> X -> acc eloc (evalue V) unit) (g : X -> list (elem V)) l :
  (forall x, In x l -> sim eloc_eqb view (fun _ : unit => True) (f tt x) (pushes t (g x))) ->
  sim eloc_eqb view (fun _ : unit => True) (afold f l tt) (pushes t (flat_map g l)).
Proof.
  intros H. apply sim_ext with (g := ofold (fun M x => pushes t (g x) M) l).
  - intros M. revert M. clear H. induction l as [|x l IH]; intros M; [ reflexivity | ]. cbn [ofold flat_map]. rewrite pushes_app.
    destruct (pushes t (g x) M); cbn [obind]; [ apply IH | reflexivity | reflexivity | reflexivity ].
  - apply sim_fold; [ | exact I ]. intros [] x Hx _. exact (H x Hx).
Qed.
Lemma body_sim t qp : t < T -> sim eloc_eqb view (fun _ : unit => True) (body t tt qp) (pushes t (work qp)).
Proof.
  intros Ht. unfold elem_body. apply sim_flat. intros pp _.
  apply sim_ext with (g := fun M => do M' <- Ok M; pushes t (flat_map (row_work V vzero Nalpha Np Nq ovl value qp pp) (seq 0 Nalpha)) M'); [ reflexivity | ].
  apply sim_bind with (QA := fun _ => True).
  - destruct (t =? 0); [ apply count_sim; lia | apply sim_ret; exact I ].
  - intros _ _. apply sim_flat. intros alphap _.
    apply sim_ext with (g := fun M => do M' <- pushes t (row_work V vzero Nalpha Np Nq ovl value qp pp alphap) M; Ok M').
    { intros M. destruct (pushes _ _ M); reflexivity. }
    apply sim_bind with (QA := fun _ => True); [ | intros _ _; apply tick_sim, Ht ].
    apply sim_ext with (g := pushes t (flat_map (fun e => [e]) (row_work V vzero Nalpha Np Nq ovl value qp pp alphap))).
    { intros M. f_equal. induction (row_work V vzero Nalpha Np Nq ovl value qp pp alphap) as [|x l IH]; [ reflexivity | cbn; rewrite IH; reflexivity ]. }
    apply sim_flat. intros e _. apply sim_ext with (g := fun M => push M (t, e)); [ | apply emit_sim ].
    intros M. unfold pushes. cbn [map ofold]. destruct (push M (t, e)); reflexivity.
Qed.

(* the threads one after the other *)
Definition thread_events (assign : list (list nat)) : list (nat * elem V) :=
  flat_map (fun tl => map (pair (fst tl)) (flat_map work (snd tl))) (combine (seq 0 (length assign)) assign).
Lemma serial_sim assign : length assign = T ->
  sim eloc_eqb view (fun _ : unit => True) (one_after_other (omp_for body (fun _ => tt) assign) tt) (ofold push (thread_events assign)).
Proof.
  intros HT. unfold one_after_other, omp_for, thread_events.
  assert (G : forall l, (forall tl, In tl l -> fst tl < T) ->
    sim eloc_eqb view (fun _ : unit => True) (afold (fun _ p => p) (map (fun tl => afold (body (fst tl)) (snd tl) tt) l) tt)
      (ofold push (flat_map (fun tl => map (pair (fst tl)) (flat_map work (snd tl))) l))).
  { induction l as [|tl l IH]; intros Hl; [ apply sim_ret; exact I | ]. cbn [map afold flat_map].
    apply sim_ext with (g := fun M => do M' <- pushes (fst tl) (flat_map work (snd tl)) M;
        ofold push (flat_map (fun tl => map (pair (fst tl)) (flat_map work (snd tl))) l) M').
    { intros M. rewrite ofold_app. reflexivity. }
    apply sim_bind with (QA := fun _ => True).
    - apply sim_flat. intros qp _. apply body_sim, Hl. left. reflexivity.
    - intros [] _. apply IH. intros x Hx. apply Hl. right. exact Hx. }
  apply G. intros [t li] H. apply in_combine_l in H. apply in_seq in H. cbn. lia.
Qed.

(* what a thread uses *)
Definition own (t : nat) (l : eloc) : Prop :=
  match l with Cnt u | Dim u | Tfc u | Buf u _ => u = t | File n => exists k, n = name_of t k end.
Definition counter (l : eloc) : Prop := exists i, l = Cnt i.
Lemma touches_rdN {A} t l (k : nat -> acc eloc (evalue V) A) : own t l -> (forall n, touches (own t) counter (k n)) -> touches (own t) counter (rdN l k).
Proof. intros Hl Hk. left. split; [ exact Hl | ]. intros [n|e|f]; [ apply Hk | exact I | exact I ]. Qed.
Lemma emit_touch t e : touches (own t) counter (emit t e).
Proof.
  unfold OmpModel.emit. apply touches_rdN; [ reflexivity | ]. intros d. split; [ reflexivity | ]. split; [ reflexivity | ].
  apply touches_rdN; [ reflexivity | ]. intros c. destruct (B <=? d + 1); [ | exact I ].
  apply touches_bind.
  - apply touches_fold. intros l k _. left. split; [ reflexivity | ]. intros [n|x|f]; exact I.
  - intros buf. apply touches_pure. intros f. split; [ exists c; reflexivity | ]. split; [ reflexivity | ].
    apply touches_rdN; [ reflexivity | ]. intros c'. split; [ reflexivity | exact I ].
Qed.
Lemma body_touch t s qp : touches (own t) counter (body t s qp).
Proof.
  unfold elem_body. apply touches_fold. intros s1 pp _. apply touches_bind.
  - destruct (t =? 0); [ | exact I ]. apply touches_fold. intros s2 i _. right. split; [ exists i; reflexivity | ]. split; [ reflexivity | intros v; exact I ].
  - intros _. apply touches_fold. intros s2 alphap _. apply touches_bind; [ apply touches_fold; intros s3 e _; apply emit_touch | ].
    intros _. apply touches_rdN; [ reflexivity | ]. intros c. split; [ reflexivity | exact I ].
Qed.

(* the progress line: thread 0 reads the counters the others write *)
Theorem progress_race m assign sched j qp0 qpj : 1 <= Np -> 1 <= Nalpha -> length assign = T -> 0 < j < T ->
  In qp0 (nth 0 assign []) -> In qpj (nth j assign []) ->
  let st := parallel eloc_eqb (omp_for body (fun _ => tt) assign) m sched in
  finished st -> race_on (elog st) (Cnt j).
Proof.
  intros HNp HNa HT Hj H0 Hqj. cbv zeta. intros Fin.
  assert (Nth : forall t, t < T -> nth_error (omp_for body (fun _ => tt) assign) t = Some (afold (body t) (nth t assign []) tt)).
  { intros t Ht. unfold omp_for. rewrite nth_error_map. rewrite (nth_error_nth' _ (0, [])) by (rewrite combine_length, seq_length; lia).
    rewrite combine_nth by apply seq_length. rewrite seq_nth by lia. reflexivity. }
  exists 0, j, false, true. split; [ lia | ]. split; [ | split; [ | right; reflexivity ] ].
  - apply (must_logged eloc_eqb (Cnt j, false) 0 sched (mkst (omp_for body (fun _ => tt) assign) m []) _ (Nth 0 ltac:(lia))); [ | exact Fin ].
    left. apply must_fold with (x := qp0); [ exact H0 | ]. intros s. unfold elem_body. apply must_fold with (x := 0); [ apply in_seq; lia | ].
    intros s1. apply must_bind_l. cbn [Nat.eqb]. apply must_fold with (x := j); [ apply in_seq; lia | ]. intros s2. left. reflexivity.
  - apply (must_logged eloc_eqb (Cnt j, true) j sched (mkst (omp_for body (fun _ => tt) assign) m []) _ (Nth j ltac:(lia))); [ | exact Fin ].
    left. apply must_fold with (x := qpj); [ exact Hqj | ]. intros s. unfold elem_body. apply must_fold with (x := 0); [ apply in_seq; lia | ].
    intros s1. apply must_bind_r. intros _. apply must_fold with (x := 0); [ apply in_seq; lia | ]. intros s2. apply must_bind_r. intros _.
    right. intros [n|e|f]; [ left; reflexivity | exact I | exact I ].
Qed.

Hypothesis names : forall t k t' k', t < T -> t' < T -> name_of t k = name_of t' k' -> t = t'.

Theorem elements_region buf0 fs M assign sched :
  ofold push (thread_events assign) (mkmem V (map (fun t => mkth V (buf0 t) 0 0) (seq 0 T)) fs) = Ok M -> length assign = T ->
  let threads := omp_for body (fun _ => tt) assign in
  let st := parallel eloc_eqb threads (elem_mem V T buf0 fs) sched in
  ~ failed st /\ (forall l, race_on (elog st) l -> counter l) /\
  (finished st -> represents (shared st) M) /\
  (exists more, finished (parallel eloc_eqb threads (elem_mem V T buf0 fs) (sched ++ more))).
Proof.
  intros E HT. cbv zeta.
  assert (Hv : view (elem_mem V T buf0 fs) (mkmem V (map (fun t => mkth V (buf0 t) 0 0) (seq 0 T)) fs)).
  { split; [ split; [ cbn; rewrite map_length, seq_length; reflexivity | split ] | ].
    - cbn [m_th]. intros t th Hth. rewrite nth_error_map in Hth. assert (Ht : t < T).
      { destruct (le_lt_dec T t) as [H|H]; [ | exact H ]. rewrite (proj2 (nth_error_None _ _)) in Hth by (rewrite seq_length; exact H). discriminate. }
      rewrite (nth_error_nth' _ 0) in Hth by (rewrite seq_length; exact Ht). rewrite seq_nth in Hth by exact Ht. cbn in Hth.
      assert (th = mkth V (buf0 t) 0 0) by congruence. subst th. cbn [elem_mem t_dim t_tfc t_buf]. apply Nat.ltb_lt in Ht. rewrite Ht. repeat split.
    - reflexivity.
    - intros t Ht. exists 0. unfold elem_mem. apply Nat.ltb_lt in Ht. rewrite Ht. reflexivity. }
  destruct (serial_sim assign HT _ _ _ Hv E) as (r & mseq & Es & _ & Vs).
  destruct (serial_region eloc_eqb eloc_eqb_spec own counter (omp_for body (fun _ => tt) assign) (elem_mem V T buf0 fs) tt r mseq sched) as (H1 & H2 & H3 & H4).
  - intros t p Hp. unfold omp_for in Hp. rewrite nth_error_map in Hp. destruct (nth_error (combine (seq 0 (length assign)) assign) t) as [[u li]|] eqn:Ec; [ | discriminate ].
    assert (u = t).
    { assert (Q := nth_error_In _ _ Ec). apply In_nth_error in Q. clear Q.
      assert (Lt : t < length assign).
      { assert (Q : nth_error (combine (seq 0 (length assign)) assign) t <> None) by congruence. apply nth_error_Some in Q. rewrite combine_length, seq_length in Q. lia. }
      apply (nth_error_nth _ _ (0, [])) in Ec. rewrite combine_nth in Ec by apply seq_length. rewrite seq_nth in Ec by exact Lt. cbn in Ec. congruence. }
    subst u. cbn in Hp. injection Hp as <-. apply touches_fold. intros s qp _. apply body_touch.
  - unfold omp_for. rewrite map_length, combine_length, seq_length, Nat.min_id, HT. intros i j l Hi Hj Hn H H'. apply Hn.
    destruct l as [u|u|u|u k|n]; cbn in H, H'; try congruence. destruct H as (k & ->). destruct H' as (k' & Hk). exact (names i k j k' Hi Hj Hk).
  - exact Es.
  - split; [ exact H1 | ]. split; [ exact H2 | ]. split; [ | exact H4 ]. intros Fin. destruct Vs as [(V1 & V2 & V3) _]. assert (Q := H3 Fin).
    split; [ exact V1 | ]. split; [ | intros n; rewrite Q; apply V3 ]. intros t th Ht. rewrite !Q. destruct (V2 t th Ht) as (G1 & G2 & G3).
    split; [ exact G1 | split; [ exact G2 | ] ]. intros k. rewrite Q. apply G3.
Qed.

End Elements.
