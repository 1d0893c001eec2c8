From Coq Require Import Permutation Sorted String.
From Verif Require Import Common ArrayLib PWModel NameModel NameProofs PioModel PioSpec PioProofs.
Open Scope nat_scope.
Open Scope list_scope.

Lemma channel_names_inj folder twoJ P Np Nq J2 t k t' k' :
  subarray_file_name folder twoJ P Np Nq J2 (Z.of_nat t) (Z.of_nat k) = subarray_file_name folder twoJ P Np Nq J2 (Z.of_nat t') (Z.of_nat k') ->
  t = t' /\ k = k'.
Proof. intros H. apply subarray_name_inj in H. destruct H as [H1 H2]. lia. Qed.

Lemma build_in_matrix V veqb vzero srt (sp : space V) folder twoJ P J2max ovl value B T buf0 fs0 evs :
  decides_eq veqb -> sorts srt -> well_formed sp -> 1 <= B ->
  let Nalpha := length (sp_pw V sp) in let Np := sp_Np V sp in let Nq := sp_Nq V sp in
  let name t k := subarray_file_name folder twoJ P (Z.of_nat Np) (Z.of_nat Nq) J2max (Z.of_nat t) (Z.of_nat k) in
  (forall t k, t < T -> k <= length evs -> String.length (name t k) < 300) ->
  (forall t, length (buf0 t) = B) -> (forall ev, In ev evs -> fst ev < T) ->
  Permutation (map snd evs) (flat_map (work V vzero Nalpha Np Nq ovl value) (seq 0 Nq)) ->
  exists fs res tfc, build V veqb name sp srt (Z.of_nat (Nalpha * Nq * Np)) B T buf0 fs0 evs = Ok (fs, res) /\
    calculate_elements V name sp B T buf0 fs0 evs = Ok (fs, tfc) /\ length tfc = T /\
    (forall n, (forall t k, t < T -> k < nth t tfc 0 -> n <> name t k) -> fs n = fs0 n) /\
    Permutation res (flat_map (work V vzero Nalpha Np Nq ovl value) (seq 0 Nq)) /\ StronglySorted before res /\
    (forall lim, length lim = T -> (forall t, t < T -> nth t tfc 0 <= nth t lim 0) ->
       (forall t k, t < T -> nth t tfc 0 <= k < nth t lim 0 -> fs (name t k) = None) ->
       merge_files V veqb name sp srt (Z.of_nat (Nalpha * Nq * Np)) fs lim = Ok res).
Proof.
  intros Heq Hs W HB Nalpha Np Nq name Hfit Lb Hev Perm.
  destruct (build_ok V veqb Heq name sp (channel_names_inj folder twoJ P (Z.of_nat Np) (Z.of_nat Nq) J2max) W fs0 B T (length evs) HB
     (fun t k Ht Hk => proj2 (Nat.ltb_lt _ _) (Hfit t k Ht Hk)) srt Hs (Z.of_nat (Nalpha * Nq * Np)) buf0 evs Lb Hev (le_n _))
    as (fs & res & tfc & E1 & E2 & L & Fr & P1 & S & R).
  - intros ev He. apply (emitted_in_matrix V vzero Nalpha Np Nq ovl value). apply (Permutation_in _ Perm), in_map, He.
  - apply (Permutation_NoDup (l := map (rc V) (flat_map (work V vzero Nalpha Np Nq ovl value) (seq 0 Nq))));
      [ apply Permutation_map, Permutation_sym, Perm | exact (emitted_NoDup V vzero Nalpha Np Nq ovl value) ].
  - exists fs, res, tfc. repeat (split; [ assumption | ]). split; [ rewrite P1; exact Perm | ]. split; [ exact S | exact R ].
Qed.

Lemma merged_matrix V veqb vzero srt (sp : space V) folder twoJ P J2max ovl value B T buf0 fs0 evs :
  decides_eq veqb -> sorts srt -> well_formed sp -> 1 <= B ->
  let Nalpha := length (sp_pw V sp) in let Np := sp_Np V sp in let Nq := sp_Nq V sp in
  let name t k := subarray_file_name folder twoJ P (Z.of_nat Np) (Z.of_nat Nq) J2max (Z.of_nat t) (Z.of_nat k) in
  (forall t k, t < T -> k <= length evs -> String.length (name t k) < 300) ->
  (forall t, length (buf0 t) = B) -> (forall ev, In ev evs -> fst ev < T) ->
  Permutation (map snd evs) (flat_map (work V vzero Nalpha Np Nq ovl value) (seq 0 Nq)) ->
  exists fs res, build V veqb name sp srt (Z.of_nat (Nalpha * Nq * Np)) B T buf0 fs0 evs = Ok (fs, res) /\
    StronglySorted before res /\
    (forall row col v, In (row, col, v) res <->
       exists ap qp pp a q p, ap < Nalpha /\ qp < Nq /\ pp < Np /\ a < Nalpha /\ q < Nq /\ p < Np /\
         row = Z.of_nat (ap * Nq * Np + qp * Np + pp) /\ col = Z.of_nat (a * Nq * Np + q * Np + p) /\
         v = value ap qp pp a q p /\ ovl qp pp q p = true /\ vzero v = false).
Proof.
  intros Heq Hs W HB Nalpha Np Nq name Hfit Lb Hev Perm.
  destruct (build_in_matrix V veqb vzero srt sp folder twoJ P J2max ovl value B T buf0 fs0 evs Heq Hs W HB Hfit Lb Hev Perm)
    as (fs & res & tfc & E1 & E2 & L & Fr & P1 & S & R).
  exists fs, res. split; [ exact E1 | ]. split; [ exact S | ]. intros row col v.
  transitivity (In (row, col, v) (emitted V vzero Nalpha Np Nq ovl value)).
  { split; intros H; [ apply (Permutation_in _ P1), H | apply (Permutation_in _ (Permutation_sym P1)), H ]. }
  rewrite in_emitted. unfold P123_idx. split.
  - intros (ap & qp & pp & a & q & p & H1 & H2 & H3 & H4 & H5 & H6 & Ho & Hz & E). injection E as -> -> ->.
    exists ap, qp, pp, a, q, p. repeat split; assumption.
  - intros (ap & qp & pp & a & q & p & H1 & H2 & H3 & H4 & H5 & H6 & -> & -> & -> & Ho & Hz).
    exists ap, qp, pp, a, q, p. repeat split; assumption.
Qed.

Lemma before_unique V (l1 l2 : list (elem V)) : StronglySorted before l1 -> StronglySorted before l2 ->
  (forall x, In x l1 <-> In x l2) -> l1 = l2.
Proof.
  apply StronglySorted_unique; [ intros a Ha; unfold before in Ha; lia | intros a b H1 H2; unfold before in *; lia ].
Qed.

Lemma schedule_independent V veqb vzero srt srt' (sp : space V) folder folder' twoJ twoJ' P P' J2max J2max' ovl value B B' T T' buf0 buf0' fs0 fs0' evs evs' :
  decides_eq veqb -> sorts srt -> sorts srt' -> well_formed sp -> 1 <= B -> 1 <= B' ->
  let Nalpha := length (sp_pw V sp) in let Np := sp_Np V sp in let Nq := sp_Nq V sp in
  let name t k := subarray_file_name folder twoJ P (Z.of_nat Np) (Z.of_nat Nq) J2max (Z.of_nat t) (Z.of_nat k) in
  let name' t k := subarray_file_name folder' twoJ' P' (Z.of_nat Np) (Z.of_nat Nq) J2max' (Z.of_nat t) (Z.of_nat k) in
  (forall t k, t < T -> k <= length evs -> String.length (name t k) < 300) ->
  (forall t k, t < T' -> k <= length evs' -> String.length (name' t k) < 300) ->
  (forall t, length (buf0 t) = B) -> (forall t, length (buf0' t) = B') ->
  (forall ev, In ev evs -> fst ev < T) -> (forall ev, In ev evs' -> fst ev < T') ->
  Permutation (map snd evs) (flat_map (work V vzero Nalpha Np Nq ovl value) (seq 0 Nq)) ->
  Permutation (map snd evs') (flat_map (work V vzero Nalpha Np Nq ovl value) (seq 0 Nq)) ->
  exists fs fs' res, build V veqb name sp srt (Z.of_nat (Nalpha * Nq * Np)) B T buf0 fs0 evs = Ok (fs, res) /\
    build V veqb name' sp srt' (Z.of_nat (Nalpha * Nq * Np)) B' T' buf0' fs0' evs' = Ok (fs', res).
Proof.
  intros Heq Hs Hs' W HB HB' Nalpha Np Nq name name' Hfit Hfit' Lb Lb' Hev Hev' Perm Perm'.
  destruct (build_in_matrix V veqb vzero srt sp folder twoJ P J2max ovl value B T buf0 fs0 evs Heq Hs W HB Hfit Lb Hev Perm)
    as (fs & res & tfc & E1 & _ & _ & _ & P1 & S1 & _).
  destruct (build_in_matrix V veqb vzero srt' sp folder' twoJ' P' J2max' ovl value B' T' buf0' fs0' evs' Heq Hs' W HB' Hfit' Lb' Hev' Perm')
    as (fs' & res' & tfc' & E1' & _ & _ & _ & P1' & S1' & _).
  exists fs, fs', res. split; [ exact E1 | ]. replace res with res'; [ exact E1' | ].
  apply before_unique; try assumption. intros x. split; intros Hx.
  - apply (Permutation_in _ (Permutation_sym P1)), (Permutation_in _ P1'), Hx.
  - apply (Permutation_in _ (Permutation_sym P1')), (Permutation_in _ P1), Hx.
Qed.

(* ---------- recovery ---------- *)
Lemma repeat_nth {A} (x : A) n i d : i < n -> nth i (repeat x n) d = x.
Proof. revert i; induction n as [|n IH]; intros [|i] H; try lia; [ reflexivity | cbn; apply IH; lia ]. Qed.

Lemma file_list_zero V name_of fs n : file_list V name_of fs (repeat 0 n) = [].
Proof.
  unfold file_list. rewrite repeat_length.
  assert (H : forall l, (forall t, In t l -> t < n) -> flat_map (fun t => flat_map (fun k => match fs (name_of t k) with Some _ => [name_of t k] | None => [] end)
    (seq 0 (nth t (repeat 0 n) 0))) l = []); [ | apply H; intros t Ht; apply in_seq in Ht; lia ].
  induction l as [|t l IH]; intros H; [ reflexivity | ]. cbn [flat_map]. rewrite repeat_nth by (apply H; left; reflexivity). cbn. apply IH.
  intros; apply H; right; assumption.
Qed.
Lemma merge_none V veqb name_of sp srt D fs n : sorts srt ->
  merge_files V veqb name_of sp srt D fs (repeat 0 n) = Ok [].
Proof.
  intros Hs. unfold merge_files. rewrite file_list_zero. cbn.
  destruct (Hs []) as [P _]. cbn in P. apply Permutation_sym, Permutation_nil in P. rewrite P. reflexivity.
Qed.

Lemma recovery_small V veqb srt (sp : space V) name_of D cells hits T fs : sorts srt ->
  (0 <= D * D * hits / cells)%Z -> (32 * (D * D * hits / cells + 1) < 2 ^ 30 * Z.of_nat T)%Z ->
  recover V veqb name_of sp srt D cells hits T fs = Ok [].
Proof.
  intros Hs H0 H. unfold recover. replace (recovery_max_TFC D cells hits (Z.of_nat T)) with 0%Z; [ apply merge_none, Hs | ].
  unfold recovery_max_TFC. symmetry. apply Z.div_small. lia.
Qed.

(* ---------- checks when merging arbitrary files ---------- *)
Lemma ofold_unit_all {A} (f : A -> bool) l : ofold (fun _ e => if f e then Ok tt else Err) l tt = Ok tt -> forall x, In x l -> f x = true.
Proof.
  induction l as [|a l IH]; intros H x [].
  - subst a. cbn [ofold] in H. destruct (f x); [ reflexivity | discriminate ].
  - apply IH; [ | assumption ]. cbn [ofold] in H. destruct (f a); [ exact H | discriminate ].
Qed.
Lemma gather_in {X} (all : list X) ord : forall acc r,
  ofold (fun acc i => do e <- aread all i; Ok (acc ++ [e])%list) ord acc = Ok r -> forall x, In x r -> In x acc \/ In x all.
Proof.
  induction ord as [|i ord IH]; intros acc r H x Hx; cbn [ofold] in H; [ injection H as <-; left; exact Hx | ].
  destruct (aread all i) as [e| | |] eqn:E; cbn [obind] in H; try discriminate.
  destruct (IH _ _ H x Hx) as [Hi|Hi]; [ | right; exact Hi ]. apply in_app_or in Hi. destruct Hi as [Hi|[<-|[]]]; [ left; exact Hi | right ].
  unfold aread in E. destruct (nth_error all i) as [y|] eqn:En; [ | discriminate ]. injection E as <-. eapply nth_error_In, En.
Qed.
Lemma merged_in_bounds V veqb name_of sp srt D fs tfc res :
  merge_files V veqb name_of sp srt D fs tfc = Ok res ->
  forall row col v, In (row, col, v) res -> (0 <= row <= D /\ 0 <= col <= D /\ row * D + col <= D * D)%Z.
Proof.
  unfold merge_files. intros H row col v Hin.
  destruct (ofold (fun acc name => do l <- read_h5 V veqb fs sp name; Ok (acc ++ l)%list) (file_list V name_of fs tfc) []) as [all| | |];
    cbn [obind] in H; try discriminate.
  destruct (negb _); [ discriminate | ].
  destruct (ofold (fun _ e => if index_ok V D e then Ok tt else Err) all tt) as [[]| | |] eqn:Ec; cbn [obind] in H; try discriminate.
  match type of H with obind ?o _ = _ => destruct o as [[]| | |] end; cbn [obind] in H; try discriminate.
  destruct (gather_in _ _ _ _ H _ Hin) as [[]|Hall].
  pose proof (ofold_unit_all (index_ok V D) all Ec _ Hall) as Hok. unfold index_ok, e_row, e_col in Hok. cbn [fst snd] in Hok.
  rewrite !andb_true_iff, !negb_true_iff, !orb_false_iff, !Z.ltb_ge in Hok. lia.
Qed.

(* ---------- an actual sorting function: insertion of indices ---------- *)
Fixpoint ins (key : nat -> Z) (i : nat) (l : list nat) : list nat :=
  match l with [] => [i] | j :: r => if (key i <=? key j)%Z then i :: l else j :: ins key i r end.
Definition isort (keys : list Z) : list nat := fold_right (ins (fun i => nth i keys 0%Z)) [] (seq 0 (length keys)).
Lemma ins_perm key i l : Permutation (ins key i l) (i :: l).
Proof. induction l as [|j l IH]; [ reflexivity | ]. cbn. destruct (_ <=? _)%Z; [ reflexivity | ]. rewrite IH. apply perm_swap. Qed.
Lemma ins_sorted key i l : StronglySorted Z.le (map key l) -> StronglySorted Z.le (map key (ins key i l)).
Proof.
  induction l as [|j l IH]; intros S; [ repeat constructor | ]. cbn [ins]. destruct (Z.leb_spec (key i) (key j)).
  - cbn [map]. constructor; [ exact S | ]. cbn [map] in S. inversion S as [|? ? S' F]; subst. constructor; [ assumption | ].
    eapply Forall_impl; [ | exact F ]. cbn. intros. lia.
  - cbn [map] in *. inversion S as [|? ? S' F]; subst. constructor; [ apply IH, S' | ].
    apply Forall_forall. intros z Hz. apply in_map_iff in Hz. destruct Hz as (k & <- & Hk).
    apply (Permutation_in _ (ins_perm key i l)) in Hk. destruct Hk as [<-|Hk]; [ lia | ].
    rewrite Forall_forall in F. apply F, in_map, Hk.
Qed.
Lemma isort_sorts : sorts isort.
Proof.
  intros keys. unfold isort. split.
  - induction (seq 0 (length keys)) as [|i l IH]; [ reflexivity | ]. cbn [fold_right]. rewrite ins_perm, IH. reflexivity.
  - induction (seq 0 (length keys)) as [|i l IH]; [ constructor | ]. cbn [fold_right]. apply (ins_sorted (fun i => nth i keys 0%Z)), IH.
Qed.

Lemma recover_complete V veqb vzero srt (sp : space V) folder twoJ P J2max ovl value B T buf0 fs0 evs fs res tfc cells hits :
  decides_eq veqb -> sorts srt -> well_formed sp -> 1 <= B ->
  let Nalpha := length (sp_pw V sp) in let Np := sp_Np V sp in let Nq := sp_Nq V sp in
  let D := Z.of_nat (Nalpha * Nq * Np) in
  let name t k := subarray_file_name folder twoJ P (Z.of_nat Np) (Z.of_nat Nq) J2max (Z.of_nat t) (Z.of_nat k) in
  (forall t k, t < T -> k <= length evs -> String.length (name t k) < 300) ->
  (forall t, length (buf0 t) = B) -> (forall ev, In ev evs -> fst ev < T) ->
  Permutation (map snd evs) (flat_map (work V vzero Nalpha Np Nq ovl value) (seq 0 Nq)) ->
  build V veqb name sp srt D B T buf0 fs0 evs = Ok (fs, res) ->
  calculate_elements V name sp B T buf0 fs0 evs = Ok (fs, tfc) ->
  let lim := Z.to_nat (recovery_max_TFC D cells hits (Z.of_nat T)) in
  (forall t, t < T -> nth t tfc 0 <= lim) ->
  (forall t k, t < T -> nth t tfc 0 <= k < lim -> fs0 (name t k) = None) ->
  recover V veqb name sp srt D cells hits T fs = Ok res.
Proof.
  intros Heq Hs W HB Nalpha Np Nq D name Hfit Lb Hev Perm Eb Ec lim Hlim Hst.
  destruct (build_in_matrix V veqb vzero srt sp folder twoJ P J2max ovl value B T buf0 fs0 evs Heq Hs W HB Hfit Lb Hev Perm)
    as (fs' & res' & tfc' & E1 & E2 & L & Fr & P1 & S1 & R).
  fold Nalpha Np Nq D name in E1, E2, R, Fr. rewrite Eb in E1. injection E1 as <- <-. rewrite Ec in E2. injection E2 as <-.
  unfold recover. fold lim. apply R.
  - apply repeat_length.
  - intros t Ht. rewrite repeat_nth by exact Ht. apply Hlim, Ht.
  - intros t k Ht Hk. rewrite repeat_nth in Hk by exact Ht. rewrite Fr; [ apply Hst; assumption | ].
    intros t' k' Ht' Hk' E. apply channel_names_inj in E. destruct E as [<- <-]. lia.
Qed.
