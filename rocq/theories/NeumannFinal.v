(* The file of Neumann terms: the statements of C98 and C99. *)
From Coq Require Import Reals String Ascii Lra.
From Verif Require Import Common ArrayLib PWModel PWSpec SwpModel ResolventModel GridSpec PotentialSpec KernelModel KernelSpec
  FaddeevModel FaddeevSpec FaddeevProofs FaddeevStepProofs FaddeevLink FaddeevPadeProofs FaddeevSolveProofs FaddeevRuleProofs FaddeevAcceptProofs
  DetModel DenseModel PadeSpec PadeLists PadeLink FaddeevDirect FaddeevExample FaddeevPropsLemmas FaddeevStatements NeumannModel NeumannProofs
  NameModel NameProofs ParamsModel TextModel TextSpec NeumannText NeumannSpec.
Open Scope nat_scope.

Lemma in_block (bl : blocks) L n : map fst bl = seq 0 L -> n < L -> exists v, nth_error bl n = Some (n, v) /\ recorded bl n = fun i => nth i v c0.
Proof.
  intros H Hn. assert (Hl : length bl = L) by (rewrite <- (map_length fst), H; apply seq_length).
  destruct (nth_error bl n) as [[m v]|] eqn:E; [ | apply nth_error_None in E; lia ]. assert (m = n).
  { pose proof (map_nth_error fst _ _ E) as F. rewrite H in F. assert (G : nth_error (seq 0 L) n = Some n).
    { rewrite (nth_error_nth' (seq 0 L) 0) by (rewrite seq_length; exact Hn). rewrite seq_nth by exact Hn. reflexivity. } cbn [fst] in F. congruence. }
  subst m. exists v. split; [ reflexivity | ]. unfold recorded.
  assert (F : forall l k, k <= n -> map fst l = seq k (length l) -> nth_error l (n - k) = Some (n, v) -> find (fun b : nat * list cdouble => fst b =? n) l = Some (n, v)).
  { induction l as [|[m w] l IH]; intros k Hk Hm Hx; [ destruct (n - k); discriminate | ]. cbn [map length seq fst] in Hm. injection Hm as -> Hm. cbn [find fst].
    destruct (Nat.eqb_spec k n) as [->|Hne].
    - rewrite Nat.sub_diag in Hx. cbn in Hx. congruence.
    - apply (IH (S k)); [ lia | exact Hm | ]. replace (n - k) with (S (n - S k)) in Hx by lia. exact Hx. }
  rewrite (F bl 0); [ reflexivity | lia | rewrite Hl; exact H | rewrite Nat.sub_0_r; exact E ].
Qed.
Section Run.
Variables (s : fsys) (tensor iso : bool) (Jm mx c : Z) (states : list pw) (V C : list R * list R).
Hypothesis Hsys : channel_system s tensor iso Jm mx c states V C.
Hypothesis HD : (1 <= zn (s_D s) <= 2 ^ 28)%Z.
Let A := kernel_matrix s tensor iso states V C.
Variable getrf : getrf_t.
Hypothesis Hgetrf : getrf_contract getrf.
Variables f fb : nat -> cdouble.
Notation det := (determinant getrf).
Notation nE := (s_nd s * s_nd s * s_nq s).

Lemma accept_conv e b NM : accepted_at det (coef_of s A) e b NM -> accepted (fun k => term s A k e) b NM.
Proof.
  assert (Hp : forall e k, PA det (coef_of s A) e k = approximant (fun k => term s A k e) k c1) by (intros; apply code_val; exact Hgetrf).
  assert (Hd : forall e k, diff det (coef_of s A) e k = change (fun k => term s A k e) k) by (intros; unfold diff, change; rewrite !Hp; reflexivity).
  intros (A1 & A2 & A3). split; [ exact A1 | ]. split; [ exact A2 | ]. intros Hb. destruct (A3 Hb) as (B1 & B2 & B3). rewrite Hd in *. rewrite Hp in *.
  split; [ exact B1 | ]. split; [ intros k Hk; rewrite <- Hd; apply B2; exact Hk | ]. unfold NM_max in B3.
  destruct B3 as [B3|[B3|[B3|B3]]]; [ left; exact B3 | right; left; lia | right; right; left; exact B3 | right; right; right; exact B3 ].
Qed.
Lemma approximant_ext a b M z : (forall n, n <= 2 * M -> a n = b n) -> approximant a M z = approximant b M z.
Proof. intros H. rewrite <- !(code_val getrf) by exact Hgetrf. apply pade_val_ext. exact H. Qed.

Lemma terms_recorded U UBU U' UBU' bl : pade_method_traced det (Some f, Some fb) s U UBU = Ok (U', UBU', bl) ->
  exists L, L <= 14 /\ map fst bl = seq 0 (2 * L + 1) /\ (forall n v, In (n, v) bl -> length v = nE) /\
  forall e, elastic s e -> exists k b, k <= L /\ accepted (fun n => term s A n e) b k /\
    (forall n, n <= 2 * L -> recorded bl n (e_idx e) = term s A (min n (2 * k)) e) /\
    nth (e_idx e) U' c0 = approximant (fun n => recorded bl n (e_idx e)) b c1.
Proof.
  intros E. destruct (traced_blocks s tensor iso Jm mx c states V C Hsys HD det f fb U UBU U' UBU' bl E) as (L & HL & HN & HLen & He).
  exists L. split; [ exact HL | ]. split; [ exact HN | ]. split; [ intros n v Hv; exact (HLen _ Hv) | ].
  intros e Hin. destruct (He e (proj1 (elastic_in s tensor iso Jm mx c states V C Hsys e) Hin)) as (k & b & K1 & K2 & _ & K4 & K5). fold A in K2, K4, K5.
  exists k, b. split; [ exact K1 | ]. split; [ apply accept_conv, K2 | ].
  assert (Hr : forall n, n <= 2 * L -> recorded bl n (e_idx e) = term s A (min n (2 * k)) e).
  { intros n Hn. destruct (in_block bl (2 * L + 1) n HN ltac:(lia)) as (v & V1 & V2). rewrite V2. exact (K5 _ (nth_error_In _ _ V1)). }
  split; [ exact Hr | ]. rewrite K4. unfold PA. rewrite code_val by exact Hgetrf. destruct K2 as (B1 & _). apply approximant_ext. intros n Hn. rewrite Hr by lia.
  rewrite Nat.min_l by lia. reflexivity.
Qed.
Lemma trace_solve U UBU U' UBU' : pade_method_solve det (Some f, Some fb) s U UBU = Ok (U', UBU') <-> exists bl, pade_method_traced det (Some f, Some fb) s U UBU = Ok (U', UBU', bl).
Proof.
  rewrite (traced_same s tensor iso Jm mx c states V C Hsys HD det f fb U UBU).
  destruct (pade_method_traced det (Some f, Some fb) s U UBU) as [[[a b] bl]| | |]; cbn [obind fst]; split; try (intros (? & ?); congruence); try congruence.
  intros H. exists bl. congruence.
Qed.
End Run.

Section File.
Variables (re im : cdouble -> double).
Open Scope string_scope.
Lemma file_written s name (bl : blocks) fs : bl <> [] -> (forall n v, In (n, v) bl -> length v = s_nd s * s_nd s * s_nq s) ->
  exists com text, comment_array s = Ok com /\ put_blocks re im name com bl fs name = Some text /\ (forall g, g <> name -> put_blocks re im name com bl fs g = fs g) /\
    filter TextSpec.comment (lines text) = map (fun b => "# n = " ++ to_string (Z.of_nat (fst b)))%string bl /\
    length (table text) = (length bl * (s_nd s * s_nd s * s_nq s))%nat /\
    forall j n v dr dc k, nth_error bl j = Some (n, v) -> (dr < s_nd s)%nat -> (dc < s_nd s)%nat -> (k < s_nq s)%nat ->
      let i := (dr * s_nd s * s_nq s + dc * s_nq s + k)%nat in
      exists row, nth_error (table text) (j * (s_nd s * s_nd s * s_nq s) + i)%nat = Some row /\ length row = 6%nat /\
        (finite (re (nth i v c0)) -> shows_real (nth_error row 0) (re (nth i v c0))) /\ (finite (im (nth i v c0)) -> shows_real (nth_error row 1) (im (nth i v c0))) /\
        skipn 2 row = ["#"; "alpha'-idx=" ++ to_string (Z.of_nat (nth dr (s_d s) 0)); "alpha-idx=" ++ to_string (Z.of_nat (nth dc (s_d s) 0)); "q-idx=" ++ to_string (Z.of_nat (nth k (s_q s) 0))]%nat.
Proof.
  intros Hne Hlen. destruct (comments_ok s eq_refl eq_refl) as (com & E & L & _). destruct (put_blocks_ok re im name com bl fs Hne) as [P1 P2].
  exists com. eexists. split; [ exact E | ]. split; [ exact P1 | ]. split; [ exact P2 | ].
  assert (HL : forall b, In b bl -> length (snd b) = (s_nd s * s_nd s * s_nq s)%nat) by (intros [n v] Hb; exact (Hlen n v Hb)).
  split; [ exact (file_labels re im s com eq_refl eq_refl E bl) | ]. rewrite (file_table re im s com eq_refl eq_refl E bl).
  split; [ exact (rows_len re im s com eq_refl eq_refl E bl HL) | ].
  intros j n v dr dc k Hj H1 H2 H3 i. exists (row_fields re im (nth i v c0) (nth dr (s_d s) 0%nat) (nth dc (s_d s) 0%nat) (nth k (s_q s) 0%nat)).
  split; [ exact (cell_nth re im s com eq_refl eq_refl E bl j (n, v) dr dc k HL Hj H1 H2 H3) | ]. split; [ reflexivity | ].
  split; [ intros F; apply shows_real_pos, F | ]. split; [ intros F; apply shows_real_pos, F | ]. reflexivity.
Qed.
Lemma last_wins name com1 com2 (bl1 bl2 : blocks) fs : bl1 <> [] -> bl2 <> [] ->
  put_blocks re im name com2 bl2 (put_blocks re im name com1 bl1 fs) name = put_blocks re im name com2 bl2 fs name.
Proof. intros _ H2. rewrite (proj1 (put_blocks_ok re im name com2 bl2 _ H2)), (proj1 (put_blocks_ok re im name com2 bl2 fs H2)). reflexivity. Qed.
End File.

(* the witness: element 0 is accepted at order 0, element 1 (all its terms zero) is not, so there is a block n = 1 *)
Section Stale.
Variable getrf : getrf_t.
Hypothesis Hgetrf : getrf_contract getrf.
Notation det := (determinant getrf).
Lemma stale (fb : nat -> cdouble) : exists CT VC U' bl,
  let s := sys10 CT VC 1 0 (1 / 10 ^ 8) 0 false [] [] in
  channel_system s true false 1 1 0 (states_of 1) (unit_mats 4 1) (unit_mats 4 1) /\ (1 <= zn (s_D s) <= 2 ^ 28)%Z /\
  pade_method_traced det (Some (fun _ => rc (1 + 5 / 10 ^ 8)), Some fb) s (repeat c0 4) [] = Ok (U', [], bl) /\
  elastic s (mkelt 0 0 4) /\ In 1 (map fst bl) /\ recorded bl 1 0 = rc 1 /\
  term s (kernel_matrix s true false (states_of 1) (unit_mats 4 1) (unit_mats 4 1)) 1 (mkelt 0 0 4) = rc (1 / 10 ^ 8).
Proof.
  destruct (sys10_ok 1 0 (1 / 10 ^ 8) 0 false [] []) as (CT & VC & Hs); [ discriminate | ].
  pose (s := sys10 CT VC 1 0 (1 / 10 ^ 8) 0 false [] []). fold s in Hs.
  pose (A := kernel_matrix s true false (states_of 1) (unit_mats 4 1) (unit_mats 4 1)).
  pose (f := fun _ : nat => rc (1 + 5 / 10 ^ 8)).
  assert (HD : (1 <= zn (s_D s) <= 2 ^ 28)%Z) by apply Hzn.
  destruct (elastic_ok s true false 1 1 0 (states_of 1) (unit_mats 4 1) (unit_mats 4 1) Hs HD det f fb (repeat c0 4) [] eq_refl eq_refl) as (U1 & E1 & _).
  apply (trace_solve s true false 1 1 0 (states_of 1) (unit_mats 4 1) (unit_mats 4 1) Hs HD) in E1. destruct E1 as (bl & E1).
  exists CT, VC, U1, bl. cbv zeta. fold s. split; [ exact Hs | ]. split; [ exact HD | ]. split; [ exact E1 | ].
  assert (H0 : In (mkelt 0 0 4) (el_elts s)) by (left; reflexivity). assert (H1 : In (mkelt 1 0 5) (el_elts s)) by (right; left; reflexivity).
  split; [ apply (elastic_in s true false 1 1 0 (states_of 1) (unit_mats 4 1) (unit_mats 4 1) Hs), H0 | ].
  destruct (traced_blocks s true false 1 1 0 (states_of 1) (unit_mats 4 1) (unit_mats 4 1) Hs HD det f fb _ _ _ _ _ E1) as (L & HL & HN & _ & He). fold A in He.
  assert (T1 : forall n, term s A n (mkelt 0 0 4) = rc ((1 / 10 ^ 8) ^ n)%R).
  { intros n. unfold s, A. rewrite term10 by lia. cbn [nth Nat.eqb]. unfold al10, g10. cbn [Nat.eqb]. rewrite Rmult_1_r, Rmult_1_l. reflexivity. }
  (* element 0 stops at order 0 *)
  destruct (He _ H0) as (k0 & b0 & K1 & _ & (_ & K3) & _ & K5).
  assert (P0 : PA det (coef_of s A) (mkelt 0 0 4) 0 = rc 1) by (unfold s, A; rewrite PA10_0 by (exact Hgetrf || lia); reflexivity).
  assert (S0 : stopr s true false (states_of 1) (unit_mats 4 1) (unit_mats 4 1) det f (mkelt 0 0 4) 0 = true).
  { refine (proj1 (proj1 (stop0 s true false 1 1 0 (states_of 1) (unit_mats 4 1) (unit_mats 4 1) Hs det fb fb f (mkelt 0 0 4) _))).
    cbv zeta. fold A. rewrite P0. unfold ref. cbn [e_idx]. unfold f. change (copp (rc (1 + 5 / 10 ^ 8))) with (- (1 + 5 / 10 ^ 8), - 0)%R.
    unfold cadd, rc, cabs. cbn [fst snd]. replace ((1 + - (1 + 5 / 10 ^ 8)) * (1 + - (1 + 5 / 10 ^ 8)) + (0 + - 0) * (0 + - 0))%R with (5 / 10 ^ 8 * (5 / 10 ^ 8))%R by lra.
    rewrite sqrt_square by lra. lra. }
  assert (k0 = 0). { destruct k0; [ reflexivity | ]. rewrite (K3 0 ltac:(lia)) in S0. discriminate. } subst k0.
  (* element 1 does not *)
  destruct (He _ H1) as (k1 & b1 & M1 & _ & (M3 & _) & _).
  assert (P1 : PA det (coef_of s A) (mkelt 1 0 5) 0 = c0) by (unfold s, A; rewrite PA10_0 by (exact Hgetrf || lia); reflexivity).
  assert (S1 : stopr s true false (states_of 1) (unit_mats 4 1) (unit_mats 4 1) det f (mkelt 1 0 5) 0 = false).
  { unfold stopr, bestr, best_val. cbn [seq Nat.add fold_left snd]. fold A. rewrite P1. unfold ref. cbn [e_idx].
    replace (cabs (cadd c0 (copp c0))) with 0%R.
    2:{ unfold cabs, cadd, copp, c0. cbn [fst snd]. replace ((0 + - 0) * (0 + - 0) + (0 + - 0) * (0 + - 0))%R with 0%R by ring. symmetry. apply sqrt_0. }
    rewrite (Rltb_ge (1 / 10 ^ 15) 0) by lra. rewrite andb_false_r. unfold conv_val. cbn [fst snd].
    rewrite ?P1. replace (cabs c0) with 0%R. 2:{ unfold cabs, c0. cbn [fst snd]. replace (0 * 0 + 0 * 0)%R with 0%R by ring. symmetry. apply sqrt_0. }
    rewrite !Rltb_ge by lra. reflexivity. }
  assert (k1 <> 0). { intros ->. rewrite M3 in S1; [ discriminate | unfold NM_max; lia ]. }
  assert (HL1 : 1 <= L) by lia.
  split; [ rewrite HN; apply in_seq; lia | ].
  split.
  - destruct (in_block bl (2 * L + 1) 1 HN ltac:(lia)) as (v & V1 & V2). rewrite V2. pose proof (K5 _ (nth_error_In _ _ V1)) as G. cbn [fst snd e_idx] in G.
    cbv beta. rewrite G. rewrite T1. reflexivity.
  - fold A. rewrite T1. unfold rc. rewrite pow_1. reflexivity.
Qed.
End Stale.
