From Coq Require Import Reals Lra Lia.
From Verif Require Import Common ArrayLib PWModel PWSpec PWPropsLemmas SwpModel SwpSpec SwpProofs SwpDriverProofs SwpPropsLemmas GridSpec GridPropsLemmas
  KernelModel KernelProofs KernelColProofs SwpWholeModel SwpWholeSpec.
Open Scope nat_scope.

(* ---------- generic ---------- *)
Lemma ofold_dec {S X} (P : list X -> S -> Prop) (bad : X -> Prop) (f : S -> X -> outcome S) l s0 :
  P [] s0 ->
  (forall d x r s, l = d ++ x :: r -> P d s -> (bad x /\ f s x = Err) \/ (~ bad x /\ exists s', f s x = Ok s' /\ P (d ++ [x]) s')) ->
  ((exists x, In x l /\ bad x) /\ ofold f l s0 = Err) \/
  ((forall x, In x l -> ~ bad x) /\ exists s', ofold f l s0 = Ok s' /\ P l s').
Proof.
  intros H0 HS. assert (G : forall r d s, l = d ++ r -> P d s ->
    ((exists x, In x r /\ bad x) /\ ofold f r s = Err) \/ ((forall x, In x r -> ~ bad x) /\ exists s', ofold f r s = Ok s' /\ P l s')).
  { induction r as [|x r IH]; intros d s E Pd.
    - right. split; [ intros x [] | ]. exists s. split; [ reflexivity | ]. rewrite app_nil_r in E. subst. exact Pd.
    - destruct (HS d x r s E Pd) as [[B F]|[B (s1 & F & P1)]].
      + left. split; [ exists x; split; [ left; reflexivity | exact B ] | ]. cbn [ofold]. rewrite F. reflexivity.
      + destruct (IH (d ++ [x]) s1 ltac:(rewrite <- app_assoc; exact E) P1) as [[(y & Hy & By) F1]|[A (s' & F1 & P')]].
        * left. split; [ exists y; split; [ right; exact Hy | exact By ] | ]. cbn [ofold]. rewrite F. cbn [obind]. exact F1.
        * right. split; [ intros y [<-|Hy]; [ exact B | apply A, Hy ] | ]. exists s'. split; [ | exact P' ]. cbn [ofold]. rewrite F. cbn [obind]. exact F1. }
  apply (G l []); [ reflexivity | exact H0 ].
Qed.
Lemma put_same {A} cm (p : A * A) v : pick cm (put cm p v) = v. Proof. destruct cm; reflexivity. Qed.
Lemma put_other {A} cm cm' (p : A * A) v : cm <> cm' -> pick cm' (put cm p v) = pick cm' p.
Proof. destruct cm, cm'; intros H; try reflexivity; congruence. Qed.
Lemma zero_fill_ok a n : n <= length a -> exists a', zero_fill a n = Ok a' /\ length a' = length a /\ forall k, k < n -> nth k a' 0%R = 0%R.
Proof.
  intros H. unfold zero_fill.
  destruct (ofold_inv (fun (d : list nat) s => length s = length a /\ forall k, In k d -> nth k s 0%R = 0%R) (fun a i => awrite a i 0%R) (seq 0 n) a) as (s & E & L & Z);
    [ split; [ reflexivity | intros k [] ] | | exists s; split; [ exact E | split; [ exact L | intros k Hk; apply Z, in_seq; lia ] ] ].
  intros d i r s E [L Z]. assert (In i (seq 0 n)) by (rewrite E; apply in_or_app; right; left; reflexivity). apply in_seq in H0.
  destruct (awrite_ok s i 0%R) as (s' & E' & L' & W & O); [ lia | ]. exists s'. split; [ exact E' | ]. split; [ congruence | ].
  intros k Hk. destruct (Nat.eq_dec k i) as [->|Hne]; [ apply nth_error_nth, W | ].
  apply in_app_iff in Hk. destruct Hk as [Hk|[->|[]]]; [ | congruence ]. transitivity (nth k s 0%R); [ | apply Z, Hk ]. specialize (O k Hne).
  destruct (nth_error s k) as [v|] eqn:Ev; [ rewrite (nth_error_nth _ _ 0%R Ev), (nth_error_nth _ _ 0%R O); reflexivity | ].
  apply nth_error_None in Ev, O. rewrite !nth_overflow by lia. reflexivity.
Qed.
Lemma skipn_add {A} m n (l : list A) : skipn n (skipn m l) = skipn (m + n) l.
Proof. revert l; induction m as [|m IH]; intros l; [ reflexivity | ]. destruct l; [ rewrite !skipn_nil; reflexivity | apply IH ]. Qed.
Lemma zero_block (a : list R) off n : off + n <= length a -> (forall k, off <= k < off + n -> nth k a 0%R = 0%R) ->
  a = firstn off a ++ repeat 0%R n ++ skipn (off + n) a.
Proof.
  intros HL HZ. rewrite <- (firstn_skipn off a) at 1. f_equal. rewrite <- (firstn_skipn n (skipn off a)). f_equal; [ | apply skipn_add ].
  apply nth_ext with (d := 0%R) (d' := 0%R); [ rewrite firstn_length, skipn_length, repeat_length; lia | ].
  intros k Hk. rewrite firstn_length, skipn_length in Hk. rewrite nth_repeat.
  assert (E : nth k (firstn n (skipn off a)) 0%R = nth (off + k) a 0%R).
  { destruct (aslice_ok a off n 0%R HL) as (l & El & Ll & Nl). unfold aslice in El. destruct (off + n <=? length a); [ | discriminate ].
    injection El as <-. apply Nl. lia. }
  rewrite E. apply HZ. lia.
Qed.
Lemma tri_off (i N : nat) : (Z.of_nat i * zn N * (zn N + 1) / 2)%Z = Z.of_nat (i * (N * (N + 1) / 2)).
Proof.
  unfold zn. rewrite Nat2Z.inj_mul, div_Zdiv by lia. rewrite Nat2Z.inj_mul, Nat2Z.inj_add. change (Z.of_nat 1) with 1%Z. change (Z.of_nat 2) with 2%Z.
  set (z := Z.of_nat N). assert (E : exists h, (z * (z + 1) = h * 2)%Z).
  { destruct (Z.Even_or_Odd z) as [[h ->]|[h ->]]; [ exists (h * (2 * h + 1))%Z; ring | exists ((2 * h + 1) * (h + 1))%Z; ring ]. }
  destruct E as [h Eh]. rewrite Eh, Z.div_mul by lia. replace (Z.of_nat i * z * (z + 1))%Z with (Z.of_nat i * h * 2)%Z by nia. apply Z.div_mul. lia.
Qed.

(* ---------- interleaving the check lists and the work ---------- *)
Section Drive.
Variable diag : nat -> list R -> list R * list R.
Lemma step_appends tensor iso nu nc evs rc evs' : swp_step tensor iso nu nc evs rc = Ok evs' -> evs' = evs \/ exists ev, evs' = evs ++ [ev].
Proof.
  unfold swp_step. destruct rc as [r c]. destruct (swp_pair_ok r c); [ | intros E; left; congruence ].
  destruct (_ && _)%bool; [ discriminate | ]. destruct (unique_2N_idx _ _ _ _ _ _ _) as [i| | |]; try discriminate. cbn [obind].
  destruct ((_ <? _)%Z || _)%bool; [ discriminate | ]. destruct (existsb _ _); intros E; [ left; congruence | right; eexists; injection E as <-; reflexivity ].
Qed.
Lemma interleave tensor iso nu nc Np H0 V l : forall evs st evs', ofold (swp_step tensor iso nu nc) l evs = Ok evs' ->
  exists new, evs' = evs ++ new /\
    ofold (swp_iter diag tensor iso nu nc Np H0 V) l (evs, st) = (do st' <- ofold (swp_process diag Np H0 V) new st; Ok (evs', st')).
Proof.
  induction l as [|rc l IH]; intros evs st evs' H; cbn [ofold] in H.
  - injection H as <-. exists []. rewrite app_nil_r. split; reflexivity.
  - destruct (swp_step tensor iso nu nc evs rc) as [e1| | |] eqn:E1; try discriminate. cbn [obind] in H.
    cbn [ofold]. unfold swp_iter at 1. cbn [fst snd]. rewrite E1. cbn [obind].
    destruct (step_appends _ _ _ _ _ _ _ E1) as [->|[ev ->]].
    + rewrite Nat.eqb_refl. cbn [obind]. apply IH. exact H.
    + rewrite app_length. cbn [length]. destruct (Nat.eqb_spec (length evs + 1) (length evs)); [ lia | ]. rewrite last_last.
      destruct (IH (evs ++ [ev]) st evs' H) as (new & Enew & _). exists (ev :: new). split; [ rewrite Enew, <- app_assoc; reflexivity | ].
      cbn [ofold]. destruct (swp_process diag Np H0 V st ev) as [st1| | |]; cbn [obind]; try reflexivity.
      destruct (IH (evs ++ [ev]) st1 evs' H) as (new' & Enew' & E2). rewrite Enew in Enew'. apply app_inv_head in Enew'. subst new'. exact E2.
Qed.
End Drive.

(* ---------- one channel ---------- *)
Lemma bnd_ext lam lam' Np b i : 2 <= Np -> (forall k, k < Np -> lam k = lam' k) -> i <= Np -> bnd lam Np b i = bnd lam' Np b i.
Proof.
  intros H2 E Hi. assert (M : forall j, j < Np -> mid lam j = mid lam' j).
  { intros [|j] Hj; [ reflexivity | ]. cbn [mid]. rewrite !E by lia. reflexivity. }
  unfold bnd. rewrite !E by lia. rewrite !(M (Np - 1)), !(M (Np - 2)) by lia.
  destruct (Nat.ltb_spec i Np); [ rewrite (M i) by lia | ]; reflexivity.
Qed.
Lemma free_full Np p base (H0 : list R) : length p = Np + 1 -> base + Np <= length H0 ->
  exists H, free_hamiltonian Np p H0 base = Ok H /\ length H = length H0 /\
    (forall k, k < Np -> nth (base + k) H 0%R = bin_kinetic p k) /\
    (forall j, j < base \/ base + Np <= j -> nth j H 0%R = nth j H0 0%R).
Proof.
  intros Lp LH. destruct (free_hamiltonian_ok Np p H0 base Lp LH) as (H' & E & L & W & O). exists H'.
  split; [ exact E | ]. split; [ exact L | ]. split.
  - intros k Hk. apply nth_error_nth. apply W, Hk.
  - intros j Hj. specialize (O j Hj). destruct (Nat.lt_ge_cases j (length H')) as [Hl|Hl].
    + assert (Hs : nth_error H' j <> None) by (apply nth_error_Some; exact Hl). destruct (nth_error H' j) as [v|] eqn:Ev; [ | congruence ].
      rewrite (nth_error_nth _ _ 0%R Ev). symmetry. apply nth_error_nth. congruence.
    + rewrite !nth_overflow by lia. reflexivity.
Qed.

(* look_for_unphysical in terms of [right_bound_states] *)
Lemma look_right w flag E0 :
  (right_bound_states w flag /\ exists E1, look_for_unphysical w flag E0 = Ok E1 /\
     if flag then exists k, k < length w /\ E1 = nth k w 0%R /\ (E1 < 0)%R else E1 = E0) \/
  (~ right_bound_states w flag /\ look_for_unphysical w flag E0 = Err).
Proof.
  assert (LS := fun E1 => look_for_spec w flag E0 E1). destruct (LS E0) as [_ [F|[E1 F]]].
  - right. split; [ | exact F ]. intros R. destruct flag; cbn [right_bound_states] in R.
    + destruct R as (k & Hk & Hn & Ho). assert (X : look_for_unphysical w true E0 = Ok (nth k w 0%R)); [ | congruence ].
      apply LS. right. split; [ reflexivity | ]. exists k. split; [ | split; [ exact Hn | ] ].
      * destruct (nth_error w k) eqn:Ev; [ f_equal; symmetry; apply nth_error_nth, Ev | apply nth_error_None in Ev; lia ].
      * intros j y Hy Hj. assert (j < length w) by (apply nth_error_Some; congruence). rewrite <- (nth_error_nth _ _ 0%R Hy). apply Ho; assumption.
    + assert (X : look_for_unphysical w false E0 = Ok E0); [ | congruence ]. apply LS. left. split; [ reflexivity | ]. split; [ | reflexivity ].
      intros x Hx. destruct (In_nth _ _ 0%R Hx) as (k & Hk & <-). apply R, Hk.
  - left. destruct (LS E1) as [L _]. destruct (proj1 L F) as [(Ef & A & B)|(Ef & k & A & B & C)]; subst flag.
    + split; [ intros j Hj; apply A, nth_In, Hj | ]. exists E1. auto.
    + assert (Hk : k < length w) by (apply nth_error_Some; congruence). assert (EN := nth_error_nth _ _ 0%R A). split.
      * exists k. split; [ exact Hk | ]. split; [ rewrite EN; exact B | ]. intros j Hj Hne. destruct (nth_error w j) as [y|] eqn:Ey; [ | apply nth_error_None in Ey; lia ].
        rewrite (nth_error_nth _ _ 0%R Ey). apply (C j y Ey Hne).
      * exists E1. split; [ exact F | ]. exists k. auto.
Qed.

Definition tri (N : nat) := N * (N + 1) / 2.
(* the eigenvector matrix and the boundaries found for one channel, as raw formulas *)
Definition raw_C (Np : nat) (cm : bool) (i : nat) (z C : list R) : Prop :=
  let N := dim2 cm Np in
  forall x k, x < N -> k < N -> nth (i * N * N + (x * N + k)) C 0%R = nth (x * N + eigenvalue_no cm Np k) z 0%R.
Definition raw_e (Np : nat) (cm : bool) (i : nat) (flag : bool) (w e : list R) : Prop :=
  let B := i * nbound cm Np in
  forall j, j <= Np ->
    nth (B + j) e 0%R = bnd (fun k => nth (eigenvalue_no cm Np k) w 0%R) Np flag j /\
    (cm = true -> nth (B + (Np + 1) + j) e 0%R = bnd (fun k => nth (eigenvalue_no cm Np (Np + k)) w 0%R) Np false j).

Section One.
Variable diag : nat -> list R -> list R * list R.
Variables (Np : nat) (p : list R) (V H0 : list R * list R) (n : bool -> nat).
Hypothesis Hdiag : solves diag Np p V n.
Hypotheses (HNp : 3 <= Np)
  (LH0 : forall cm, length (pick cm H0) = dim2 cm Np)
  (VH0 : forall cm x, x < dim2 cm Np -> nth x (pick cm H0) 0%R = bin_kinetic p (x mod Np)).
Notation spectrum := (SwpWholeSpec.spectrum diag Np p V).
Definition Eb_after (Eb Eb' : R) (w : list R) (flag : bool) : Prop :=
  if flag then exists k, k < length w /\ Eb' = nth k w 0%R /\ (Eb' < 0)%R else Eb' = Eb.

Lemma upper_packed_ext N A B : (forall r c, r <= c < N -> A r c = B r c) -> upper_packed N A = upper_packed N B.
Proof.
  intros E. unfold upper_packed. apply SwpPropsLemmas.flat_map_ext_in. intros r Hr. apply in_seq in Hr. apply map_ext_in. intros c Hc. apply in_seq in Hc. apply E. lia.
Qed.
Lemma spec_len_wz cm i : i < n cm -> length (fst (spectrum cm i)) = dim2 cm Np /\ length (snd (spectrum cm i)) = dim2 cm Np * dim2 cm Np.
Proof.
  intros Hi. unfold spectrum. destruct (Hdiag cm i Hi) as (A & B & _). split; assumption.
Qed.

Lemma reorder_eig cm w z : length w = dim2 cm Np -> length z = dim2 cm Np * dim2 cm Np ->
  exists w' z', (if cm then reorder Np w z else Ok (w, z)) = Ok (w', z') /\ length w' = dim2 cm Np /\ length z' = dim2 cm Np * dim2 cm Np /\
    (forall k, k < dim2 cm Np -> nth k w' 0%R = nth (eigenvalue_no cm Np k) w 0%R) /\
    (forall x k, x < dim2 cm Np -> k < dim2 cm Np -> nth (x * dim2 cm Np + k) z' 0%R = nth (x * dim2 cm Np + eigenvalue_no cm Np k) z 0%R).
Proof.
  intros Lw Lz. destruct cm; cbn [dim2 eigenvalue_no] in *.
  - destruct (reorder_spec Np w z Lw ltac:(nia)) as (w' & z' & E & L1 & L2 & Hv & Hw). exists w', z'.
    split; [ exact E | ]. split; [ exact L1 | ]. split; [ rewrite L2; nia | ].
    assert (ES : forall k, k < 2 * Np -> src Np k = (if k <? Np then 2 * k else 2 * (k - Np) + 1) /\ src Np k < 2 * Np)
      by (intros k Hk; unfold src; destruct (Nat.ltb_spec k Np); split; lia).
    assert (TT : forall (l l' : list R) a b, nth_error l a = nth_error l' b -> b < length l' -> nth a l 0%R = nth b l' 0%R).
    { intros l l' a b X Hb. assert (nth_error l' b <> None) by (apply nth_error_Some; exact Hb). destruct (nth_error l' b) eqn:Eb; [ | congruence ].
      rewrite (nth_error_nth _ _ 0%R Eb), (nth_error_nth _ _ 0%R X). reflexivity. }
    split.
    + intros k Hk. destruct (ES k Hk) as [<- Hs]. apply TT; [ apply Hv, Hk | lia ].
    + intros x k Hx Hk. destruct (ES k Hk) as [<- Hs]. apply TT; [ apply Hw; assumption | nia ].
  - exists w, z. repeat split; auto.
Qed.

Lemma process_ok st cm i flag : i < n cm ->
  length (pick cm (sw_H st)) = tri (dim2 cm Np) * n cm -> length (pick cm V) = dim2 cm Np * dim2 cm Np * n cm ->
  length (pick cm (sw_C st)) = dim2 cm Np * dim2 cm Np * n cm -> length (pick cm (sw_e st)) = nbound cm Np * n cm ->
  (forall k, i * tri (dim2 cm Np) <= k < i * tri (dim2 cm Np) + tri (dim2 cm Np) -> nth k (pick cm (sw_H st)) 0%R = 0%R) ->
  let w := fst (spectrum cm i) in let z := snd (spectrum cm i) in
  (~ right_bound_states w flag /\ swp_process diag Np H0 V st (cm, Z.of_nat i, flag) = Err) \/
  (right_bound_states w flag /\ exists H C e Eb,
     swp_process diag Np H0 V st (cm, Z.of_nat i, flag) = Ok (mkswp (put cm (sw_H st) H) (put cm (sw_C st) C) (put cm (sw_e st) e) Eb) /\
     length H = length (pick cm (sw_H st)) /\ length C = length (pick cm (sw_C st)) /\ length e = length (pick cm (sw_e st)) /\
     raw_C Np cm i z C /\ raw_e Np cm i flag w e /\ Eb_after (sw_Eb st) Eb w flag /\
     (forall k, k < i * tri (dim2 cm Np) \/ i * tri (dim2 cm Np) + tri (dim2 cm Np) <= k -> nth k H 0%R = nth k (pick cm (sw_H st)) 0%R) /\
     (forall k, k < i * dim2 cm Np * dim2 cm Np \/ i * dim2 cm Np * dim2 cm Np + dim2 cm Np * dim2 cm Np <= k -> nth k C 0%R = nth k (pick cm (sw_C st)) 0%R) /\
     (forall k, k < i * nbound cm Np \/ i * nbound cm Np + nbound cm Np <= k -> nth k e 0%R = nth k (pick cm (sw_e st)) 0%R)).
Proof.
  intros Hi LH LV LC Le HZ. set (N := dim2 cm Np) in *. cbv zeta.
  set (T := tri N) in *. assert (HT : i * T + T <= T * n cm) by nia.
  assert (HM : i * N * N + N * N <= N * N * n cm) by nia.
  unfold swp_process. fold N. rewrite tri_off. fold (tri N). fold T. rewrite !Nat2Z.id.
  set (h := pick cm (sw_H st)) in *.
  assert (Eh : h = firstn (i * T) h ++ repeat 0%R T ++ skipn (i * T + T) h) by (apply zero_block; [ lia | exact HZ ]).
  destruct (hamiltonian_packed N (i * N * N) (pick cm H0) (pick cm V) (firstn (i * T) h) (skipn (i * T + T) h)) as [LU EU]; [ apply LH0 | lia | ].
  cbv zeta in LU, EU. fold (tri N) in LU, EU. fold T in LU, EU.
  replace (upper_packed N _) with (upper_packed N (hamiltonian Np p V cm i)) in LU, EU
    by (apply upper_packed_ext; intros r c Hrc; unfold hamiltonian; fold N; destruct (Nat.eqb_spec r c) as [->|]; [ rewrite VH0 by (fold N; lia) | ]; reflexivity).
  assert (Lf : length (firstn (i * T) h) = i * T) by (rewrite firstn_length; lia). rewrite Lf, <- Eh in EU.
  set (U := upper_packed N (hamiltonian Np p V cm i)) in *. fold zn in EU. change (zn (i * T)) with (Z.of_nat (i * T)) in EU. rewrite EU. cbn [obind].
  unfold aslice. fold (tri N). fold T. set (h' := firstn (i * T) h ++ U ++ skipn (i * T + T) h).
  assert (Lh' : length h' = length h) by (unfold h'; rewrite !app_length, skipn_length; lia).
  destruct (Nat.leb_spec (i * T + T) (length h')); [ | lia ]. cbn [obind].
  assert (ES : firstn T (skipn (i * T) h') = U).
  { unfold h'. rewrite skipn_app, Lf, Nat.sub_diag. cbn [skipn]. rewrite skipn_all2 by lia. cbn [app]. rewrite firstn_app, LU, Nat.sub_diag, firstn_O, app_nil_r. apply firstn_all2. lia. }
  rewrite ES. change (diag N U) with (spectrum cm i).
  destruct (spec_len_wz cm i Hi) as [Lw Lz]. fold N in Lw, Lz. destruct (spectrum cm i) as [w z]. cbn [fst snd] in *.
  unfold swp_channel. destruct (look_right w flag (sw_Eb st)) as [[R (Eb & EL & AE)]|[R EL]]; [ right | left; split; [ exact R | rewrite EL; reflexivity ] ].
  split; [ exact R | ].
  destruct (reorder_eig cm w z Lw Lz) as (w' & z' & Er & L1 & L2 & Hw & Hz). fold N in L1, L2, Hw, Hz.
  destruct (bb_spec w' (pick cm (sw_e st)) (i * nbound cm Np) Np cm flag ltac:(lia)) as (e' & Ee & Le' & Ve & Oe).
  { rewrite L1. unfold N, dim2. destruct cm; reflexivity. }
  { rewrite Le. unfold nbound. destruct cm; nia. }
  replace (Z.of_nat i * zn (nbound cm Np))%Z with (zn (i * nbound cm Np)) by (unfold zn; lia).
  destruct (ablit_ok (pick cm (sw_C st)) z' (i * N * N) 0%R ltac:(lia)) as (C & EC & LC' & VC & OC).
  exists h', C, e', Eb. split; [ rewrite EL; cbn [obind]; rewrite Er; cbn [obind]; rewrite Ee; cbn [obind]; rewrite EC; reflexivity | ]. split; [ exact Lh' | ]. split; [ exact LC' | ]. split; [ exact Le' | ].
  split; [ | split; [ | split; [ exact AE | split; [ | split ] ] ] ].
  - intros x k Hx Hk. fold N in Hx, Hk |- *. rewrite VC by nia. apply Hz; assumption.
  - intros j Hj. destruct (Ve j Hj) as [V1 V2]. split.
    + rewrite V1. apply bnd_ext; [ lia | | exact Hj ]. intros k Hk. apply Hw. unfold N, dim2. destruct cm; lia.
    + intros ->. rewrite (V2 eq_refl). apply bnd_ext; [ lia | | exact Hj ]. intros k Hk. apply Hw. unfold N, dim2. lia.
  - intros k Hk. unfold h'. destruct Hk as [Hk|Hk].
    + rewrite app_nth1 by lia. apply nth_firstn_lt. exact Hk.
    + rewrite app_nth2 by lia. rewrite app_nth2 by lia. rewrite nth_skipn_add. f_equal. lia.
  - intros k Hk. apply OC. lia.
  - intros k Hk. apply Oe. unfold nbound in *. destruct cm; lia.
Qed.
End One.

(* ---------- all channels ---------- *)
Section All.
Variable diag : nat -> list R -> list R * list R.
Variables (Np : nat) (p : list R) (V H0 C0 : list R * list R) (Eb0 : R) (n : bool -> nat).
Hypothesis Hdiag : solves diag Np p V n.
Hypotheses (HNp : 3 <= Np)
  (LH0 : forall cm, length (pick cm H0) = dim2 cm Np)
  (VH0 : forall cm x, x < dim2 cm Np -> nth x (pick cm H0) 0%R = bin_kinetic p (x mod Np))
  (LV : forall cm, length (pick cm V) = dim2 cm Np * dim2 cm Np * n cm)
  (LC0 : forall cm, length (pick cm C0) = dim2 cm Np * dim2 cm Np * n cm).
Notation spectrum := (SwpWholeSpec.spectrum diag Np p V).

Definition fresh (cm : bool) (i : nat) (st : swp_arrays) : Prop :=
  (forall k, i * tri (dim2 cm Np) <= k < i * tri (dim2 cm Np) + tri (dim2 cm Np) -> nth k (pick cm (sw_H st)) 0%R = 0%R) /\
  (forall k, i * dim2 cm Np * dim2 cm Np <= k < i * dim2 cm Np * dim2 cm Np + dim2 cm Np * dim2 cm Np -> nth k (pick cm (sw_C st)) 0%R = nth k (pick cm C0) 0%R) /\
  (forall k, i * nbound cm Np <= k < i * nbound cm Np + nbound cm Np -> nth k (pick cm (sw_e st)) 0%R = 0%R).
Definition done (cm : bool) (i : nat) (flag : bool) (st : swp_arrays) : Prop :=
  right_bound_states (fst (spectrum cm i)) flag /\
  raw_C Np cm i (snd (spectrum cm i)) (pick cm (sw_C st)) /\ raw_e Np cm i flag (fst (spectrum cm i)) (pick cm (sw_e st)).
Record inv (d : list event) (st : swp_arrays) : Prop := {
  i_len : forall cm, length (pick cm (sw_H st)) = tri (dim2 cm Np) * n cm /\ length (pick cm (sw_C st)) = dim2 cm Np * dim2 cm Np * n cm /\
            length (pick cm (sw_e st)) = nbound cm Np * n cm;
  i_fresh : forall cm i, i < n cm -> ~ In (cm, Z.of_nat i) (map ev_key d) -> fresh cm i st;
  i_done : forall cm i flag, In (cm, Z.of_nat i, flag) d -> done cm i flag st;
  i_Eb0 : (forall ev, In ev d -> snd ev = false) -> sw_Eb st = Eb0;
  i_Eb : forall cm i, In (cm, Z.of_nat i, true) d -> Eb_after Eb0 (sw_Eb st) (fst (spectrum cm i)) true }.
Definition bad (ev : event) : Prop := let '(cm, i, flag) := ev in ~ right_bound_states (fst (spectrum cm (Z.to_nat i))) flag.

Lemma raw_C_frame cm i z C C' : (forall k, i * dim2 cm Np * dim2 cm Np <= k < i * dim2 cm Np * dim2 cm Np + dim2 cm Np * dim2 cm Np -> nth k C' 0%R = nth k C 0%R) ->
  raw_C Np cm i z C -> raw_C Np cm i z C'.
Proof. intros E RC x k Hx Hk. rewrite E; [ apply RC; assumption | ]. split; [ lia | ]. apply Nat.add_lt_mono_l, rm_lt; assumption. Qed.
Lemma raw_e_frame cm i b w e e' : (forall k, i * nbound cm Np <= k < i * nbound cm Np + nbound cm Np -> nth k e' 0%R = nth k e 0%R) ->
  raw_e Np cm i b w e -> raw_e Np cm i b w e'.
Proof.
  intros E RE j Hj. destruct (RE j Hj) as [A B]. split.
  - rewrite E; [ exact A | unfold nbound; destruct cm; lia ].
  - intros Hc. rewrite E; [ apply B, Hc | unfold nbound; rewrite Hc; lia ].
Qed.

Lemma all_channels evs (st0 : swp_arrays) : NoDup (map ev_key evs) ->
  (forall cm i flag, In (cm, i, flag) evs -> (0 <= i < Z.of_nat (n cm))%Z) ->
  (forall a b, In a evs -> In b evs -> snd a = true -> snd b = true -> a = b) ->
  inv [] st0 ->
  ((exists ev, In ev evs /\ bad ev) /\ ofold (swp_process diag Np H0 V) evs st0 = Err) \/
  ((forall ev, In ev evs -> ~ bad ev) /\ exists st, ofold (swp_process diag Np H0 V) evs st0 = Ok st /\ inv evs st).
Proof.
  intros ND HR HU I0. apply (ofold_dec inv bad); [ exact I0 | ]. intros d [[cm zi] flag] r st E I.
  assert (Hin : In (cm, zi, flag) evs) by (rewrite E; apply in_or_app; right; left; reflexivity).
  destruct (HR cm zi flag Hin) as [Hz1 Hz2]. set (i := Z.to_nat zi). assert (Ei : zi = Z.of_nat i) by (unfold i; lia). assert (Hi : i < n cm) by lia.
  assert (Hnew : ~ In (cm, Z.of_nat i) (map ev_key d)).
  { rewrite E, map_app in ND. cbn [map ev_key fst] in ND. apply NoDup_remove_2 in ND. rewrite in_app_iff in ND. rewrite <- Ei. tauto. }
  destruct I as [IL IF ID IE0 IE]. destruct (IL cm) as (L1 & L2 & L3). destruct (IF cm i Hi Hnew) as (F1 & F2 & F3).
  destruct (process_ok diag Np p V H0 n Hdiag HNp LH0 VH0 st cm i flag Hi L1 (LV cm) L2 L3 F1) as [[NR EP]|[RB (H & C & e & Eb & EP & LH & LC & Le & RC & RE & AE & OH & OC & Oe)]].
  { left. split; [ unfold bad; fold i; exact NR | rewrite Ei; exact EP ]. }
  right. split; [ unfold bad; fold i; tauto | ]. rewrite Ei. eexists. split; [ exact EP | ].
  assert (Old : forall cm' i', i' < n cm' -> (cm', i') <> (cm, i) ->
    (forall k, i' * tri (dim2 cm' Np) <= k < i' * tri (dim2 cm' Np) + tri (dim2 cm' Np) -> nth k (pick cm' (put cm (sw_H st) H)) 0%R = nth k (pick cm' (sw_H st)) 0%R) /\
    (forall k, i' * dim2 cm' Np * dim2 cm' Np <= k < i' * dim2 cm' Np * dim2 cm' Np + dim2 cm' Np * dim2 cm' Np -> nth k (pick cm' (put cm (sw_C st) C)) 0%R = nth k (pick cm' (sw_C st)) 0%R) /\
    (forall k, i' * nbound cm' Np <= k < i' * nbound cm' Np + nbound cm' Np -> nth k (pick cm' (put cm (sw_e st) e)) 0%R = nth k (pick cm' (sw_e st)) 0%R)).
  { intros cm' i' Hi' Hne. destruct (bool_dec cm cm') as [<-|Hc]; [ | rewrite !put_other by exact Hc; auto ].
    rewrite !put_same. assert (Hlt : i' < i \/ i < i') by (destruct (lt_eq_lt_dec i' i) as [[?|He]|?]; [ auto | exfalso; apply Hne; rewrite He; reflexivity | auto ]).
    split; [ | split ]; intros k Hk; [ apply OH | apply OC | apply Oe ]; destruct Hlt; [ left; nia | right; nia | left; nia | right; nia | left; nia | right; nia ]. }
  constructor.
  - intros cm'. cbn [sw_H sw_C sw_e]. destruct (bool_dec cm cm') as [<-|Hc]; [ rewrite !put_same | rewrite !put_other by exact Hc; apply IL ]. rewrite LH, LC, Le. auto.
  - intros cm' i' Hi' Hn. rewrite map_app, in_app_iff in Hn. cbn [map ev_key fst In] in Hn.
    assert (Hne : (cm', i') <> (cm, i)) by (intros X; apply Hn; right; left; congruence).
    destruct (Old cm' i' Hi' Hne) as (O1 & O2 & O3). destruct (IF cm' i' Hi' ltac:(tauto)) as (G1 & G2 & G3).
    split; [ | split ]; cbn [sw_H sw_C sw_e]; intros k Hk; [ rewrite O1 | rewrite O2 | rewrite O3 ]; auto.
  - intros cm' i' flag' Hin'. apply in_app_iff in Hin'. destruct Hin' as [Hin'|[Heq|[]]].
    + assert (Hi' : i' < n cm') by (specialize (HR cm' (Z.of_nat i') flag' ltac:(rewrite E; apply in_or_app; left; exact Hin')); lia).
      assert (Hne : (cm', i') <> (cm, i)).
      { intros X. apply Hnew. apply in_map_iff. exists (cm', Z.of_nat i', flag'). split; [ cbn; congruence | exact Hin' ]. }
      destruct (Old cm' i' Hi' Hne) as (O1 & O2 & O3). destruct (ID cm' i' flag' Hin') as (R1 & R2 & R3).
      split; [ exact R1 | ]. split; cbn [sw_C sw_e]; [ eapply raw_C_frame; [ exact O2 | exact R2 ] | eapply raw_e_frame; [ exact O3 | exact R3 ] ].
    + assert (cm = cm' /\ i = i' /\ flag = flag') as (<- & <- & <-) by (split; [ congruence | split; [ | congruence ] ]; assert (Z.of_nat i = Z.of_nat i') by congruence; lia).
      split; [ exact RB | ]. cbn [sw_C sw_e]. rewrite !put_same. auto.
  - intros Hall. cbn [sw_Eb]. assert (Hf : flag = false) by (apply (Hall (cm, Z.of_nat i, flag)), in_or_app; right; left; reflexivity). subst flag.
    cbn [Eb_after] in AE. rewrite AE. apply IE0. intros ev Hev. apply Hall, in_or_app. left. exact Hev.
  - intros cm' i' Hin'. cbn [sw_Eb]. apply in_app_iff in Hin'. destruct Hin' as [Hin'|[Heq|[]]].
    + destruct flag.
      * exfalso. assert (X : (cm', Z.of_nat i', true) = (cm, zi, true)).
        { apply HU; [ rewrite E; apply in_or_app; left; exact Hin' | exact Hin | reflexivity | reflexivity ]. }
        apply Hnew. apply in_map_iff. exists (cm', Z.of_nat i', true). split; [ cbn; congruence | exact Hin' ].
      * cbn [Eb_after] in AE. rewrite AE. apply IE. exact Hin'.
    + assert (cm = cm' /\ i = i' /\ flag = true) as (<- & <- & ->) by (split; [ congruence | split; [ | congruence ] ]; assert (Z.of_nat i = Z.of_nat i') by congruence; lia).
      exact AE.
Qed.
End All.
