(* Both solvers and the solution of the Faddeev equation (C43, C60). *)
From Coq Require Import Reals.
From Verif Require Import Common ArrayLib PWModel SwpModel ResolventModel GridSpec KernelModel KernelSpec KernelColProofs FaddeevModel FaddeevSpec
  FaddeevProofs FaddeevStepProofs FaddeevLink FaddeevPadeProofs FaddeevSolveProofs DetModel DenseModel DenseProofs PadeSpec PadeLists DensePadeLink.
Open Scope nat_scope.

Arguments plain_regular : clear implicits.
Arguments plain_unique : clear implicits.
Arguments plain_solves : clear implicits.
Arguments plain_solution : clear implicits.
Arguments plain_beyond : clear implicits.
Section Channel.
Variables (s : fsys) (tensor iso : bool) (Jm mx c : Z) (states : list pw) (V C : list R * list R).
Hypothesis Hsys : channel_system s tensor iso Jm mx c states V C.
Let A := kernel_matrix s tensor iso states V C.
Let HG := HG s tensor iso Jm mx c states V C Hsys.
Let Hcol := link_col s tensor iso Jm mx c states V C Hsys.
Let Hends := link_ends s tensor iso Jm mx c states V C Hsys.
Let Hq := Hq s tensor iso Jm mx c states V C Hsys.
Let Hd := Hd s tensor iso Jm mx c states V C Hsys.
Let HNp := HNp s tensor iso Jm mx c states V C Hsys.
Let Hcells := link_cells s tensor iso Jm mx c states V C Hsys.
Let inel := FaddeevStepProofs.in_el s A HG Hcol Hends Hq Hd HNp.

Lemma row_dq d q : q < s_nq s -> (d * s_nq s + q) mod s_nq s = q /\ (d * s_nq s + q) / s_nq s = d.
Proof.
  intros Hqn. split.
  - rewrite Nat.add_comm, Nat.mod_add by lia. apply Nat.mod_small. exact Hqn.
  - rewrite Nat.add_comm, Nat.div_add by lia. rewrite Nat.div_small by exact Hqn. lia.
Qed.
(* where an element's row and column lie *)
Lemma el_lt e : In e (el_elts s) -> row_state s (e_row e) < s_D s /\ e_col e < s_D s /\ e_row e mod s_nq s < s_nq s.
Proof.
  intros He. apply inel in He. destruct He as (dr & dc & q & H1 & H2 & H3 & ->). cbn [e_row e_col].
  unfold row_state. destruct (row_dq dr q H3) as [-> ->].
  split; [ apply (idx3_lt (s_N s)); cbn; repeat split | split; [ apply (idx3_lt (s_N s)); cbn; repeat split | exact H3 ] ];
    try (apply Hd, nth_In; assumption); try (apply Hq, nth_In; assumption); exact HNp.
Qed.
Lemma bu_lt e : In e (bu_elts s) -> row_state s (e_row e) < s_D s /\ e_col e < s_D s /\ e_row e mod s_nq s < s_nq s.
Proof.
  intros He. unfold bu_elts in He. destruct (Bool.bool_dec (s_breakup s) true) as [Hb|Hb].
  2:{ apply Bool.not_true_is_false in Hb. rewrite Hb in He. destruct He. }
  rewrite Hb in He. apply in_flat_map in He. destruct He as (q & Hqi & He). apply in_flat_map in He. destruct He as (dr & Hdr & He).
  apply in_map_iff in He. destruct He as (b & <- & Hbi). apply in_seq in Hqi, Hdr.
  destruct (Hends Hb) as [M1 M2]. unfold bu_range in Hbi. apply in_seq in Hbi.
  assert (Hmono : forall k, q + 1 + k <= s_nq s -> nth (q + 1) (s_ends s) 0 <= nth (q + 1 + k) (s_ends s) 0).
  { induction k as [|k IH]; intros Hk; [ rewrite Nat.add_0_r; lia | ]. specialize (IH ltac:(lia)). specialize (M1 (q + 1 + k) ltac:(lia)).
    replace (q + 1 + S k) with (q + 1 + k + 1) by lia. lia. }
  assert (Hbn : b < s_nBU s). { specialize (Hmono (s_nq s - (q + 1)) ltac:(lia)). replace (q + 1 + (s_nq s - (q + 1))) with (s_nq s) in Hmono by lia. specialize (M1 q ltac:(lia)). lia. }
  pose proof (Hcells Hb (nth b (s_cells s) (0, 0, 0)) (nth_In _ _ Hbn)) as Hv.
  destruct (nth b (s_cells s) (0, 0, 0)) as [[al qi] pi]. cbn [e_row e_col]. unfold row_state.
  destruct (row_dq dr q ltac:(lia)) as [-> ->].
  split; [ | split; [ | lia ] ].
  - apply (idx3_lt (s_N s)). cbn. repeat split; [ apply Hd, nth_In; unfold s_nd in *; lia | apply Hq, nth_In; unfold s_nq in *; lia | exact HNp ].
  - pose proof (idx3_lt _ _ _ _ Hv) as B. cbn [idx3] in B. replace (al * s_Nq s * s_Np s + qi * s_Np s + pi) with ((al * s_Nq s + qi) * s_Np s + pi) by ring. exact B.
Qed.

(* C60 *)
Lemma direct_solves (solve : solve_t) U : solve_contract solve -> length U = s_nd s * s_nd s * s_nq s ->
  exists U', dense_solver solve s U = Ok U' /\ length U' = length U /\
    forall e X, In e (el_elts s) -> faddeev_regular (s_D s) A (row_G s (e_row e)) -> faddeev_solution (s_D s) A (row_G s (e_row e)) X -> nth (e_idx e) U' c0 = X (row_state s (e_row e)) (e_col e).
Proof.
  intros Hs LU.
  assert (EG : forall j k, j < s_nq s -> row_G s j k = nth (j * s_D s + k) (s_G s) c0) by (intros j k Hj; unfold row_G; rewrite Nat.mod_small by exact Hj; reflexivity).
  assert (Hreg' : forall j, j < s_nq s -> faddeev_regular (s_D s) A (row_G s j) -> regular_at s tensor iso states V C j).
  { intros j Hj Hreg. unfold regular_at. intros y Hy. apply (plain_regular _ _ _ Hreg). intros i Hi. rewrite <- (Hy i Hi). apply ctotal_ext. intros k Hk.
    unfold Lval, Lf. rewrite EG by exact Hj. reflexivity. }
  destruct (dense_ok s tensor iso Jm mx c states V C Hsys solve Hs U LU) as (U' & E & L & H).
  exists U'. split; [ exact E | ]. split; [ exact L | ]. intros e X He Hreg HX. pose proof (el_lt e He) as (B1 & B2 & B3).
  apply inel in He. destruct He as (dr & dc & q & H1 & H2 & H3 & ->). cbn [e_row e_col e_idx] in *.
  unfold row_state in *. destruct (row_dq dr q H3) as [Rq Rd]. rewrite Rq, Rd in *.
  assert (Hreg2 : faddeev_regular (s_D s) A (row_G s q)).
  { intros y Hy. apply Hreg. intros i Hi. rewrite (Hy i Hi). apply ctotal_ext. intros k Hk. unfold row_G. rewrite Rq, (Nat.mod_small q) by exact H3. reflexivity. }
  destruct (H q H3 (Hreg' q H3 Hreg2)) as (Y & SY & HY). rewrite (HY dr dc H1 H2).
  apply (plain_unique (s_D s) A (row_G s q) Y X Hreg2); [ | | exact B1 | exact B2 ].
  - apply plain_solves. intros r k Hr Hk. etransitivity; [ | exact (SY r k Hr Hk) ]. apply ctotal_ext. intros i Hi. unfold Lval, Lf. rewrite EG by exact H3. reflexivity.
  - intros r k Hr Hk. rewrite (HX r k Hr Hk). f_equal. apply ctotal_ext. intros i Hi. f_equal. f_equal. unfold row_G. rewrite Rq, Nat.mod_small by exact H3. reflexivity.
Qed.

(* C43 *)
Section Agree.
Variable getrf : getrf_t.
Hypothesis Hgetrf : getrf_contract getrf.
Lemma agree e M X : In e (el_elts s ++ bu_elts s) -> s_D s <= M -> regular (M + 1) (denominator (fun k => term s A k e) M c1) ->
  faddeev_solution (s_D s) A (row_G s (e_row e)) X ->
  pade_approximant (determinant getrf) (fun k => Ok (term s A k e)) M M c1 = Ok (X (row_state s (e_row e)) (e_col e)).
Proof.
  intros He HM HR HX. assert (B : row_state s (e_row e) < s_D s /\ e_col e < s_D s) by (apply in_app_or in He; destruct He as [He|He]; [ apply el_lt in He | apply bu_lt in He ]; tauto).
  destruct B as [B1 B2]. rewrite (pade_reads _ _ (fun k => term s A k e)) by reflexivity. f_equal.
  exact (proj2 (plain_solution _ _ _ getrf _ _ Hgetrf B1 B2 X M HX HM HR)).
Qed.
Lemma beyond e M : In e (el_elts s ++ bu_elts s) -> s_D s < M ->
  determinant getrf (mxQ (fun k => term s A k e) M c1) (M + 1) = c0 /\ determinant getrf (mxP (fun k => term s A k e) M c1) (M + 1) = c0.
Proof.
  intros He HM. assert (B : row_state s (e_row e) < s_D s /\ e_col e < s_D s) by (apply in_app_or in He; destruct He as [He|He]; [ apply el_lt in He | apply bu_lt in He ]; tauto).
  destruct B as [B1 B2]. exact (plain_beyond _ _ _ getrf _ _ Hgetrf B1 B2 M HM).
Qed.
End Agree.
End Channel.
