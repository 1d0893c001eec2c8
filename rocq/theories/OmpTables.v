From Coq Require Import Reals Permutation.
From Verif Require Import Common ArrayLib PWModel SwpModel KernelModel FaddeevModel GeoModel GeoProofs GridModel PermModel PioModel OmpModel OmpProofs OmpRegions.
Open Scope nat_scope.
Open Scope list_scope.

Lemma in_triples a b c x y z : In (x, y, z) (triples a b c) <-> In x a /\ In y b /\ In z c.
Proof.
  unfold triples. split.
  - intros H. apply in_flat_map in H. destruct H as (x' & H1 & H). apply in_flat_map in H. destruct H as (y' & H2 & H).
    apply in_map_iff in H. destruct H as (z' & E & H3). injection E as -> -> ->. tauto.
  - intros (H1 & H2 & H3). apply in_flat_map. exists x. split; [ exact H1 | ]. apply in_flat_map. exists y. split; [ exact H2 | ].
    apply in_map_iff. exists z. split; [ reflexivity | exact H3 ].
Qed.
Lemma NoDup_flat_map {A B} (f : A -> list B) l : NoDup l -> (forall x, In x l -> NoDup (f x)) ->
  (forall x y b, In x l -> In y l -> In b (f x) -> In b (f y) -> x = y) -> NoDup (flat_map f l).
Proof.
  induction l as [|x l IH]; intros Hnd H1 H2; [ constructor | ]. inversion Hnd as [|? ? Hn Hd]; subst. cbn.
  assert (G : forall u v : list B, NoDup u -> NoDup v -> (forall b, In b u -> ~ In b v) -> NoDup (u ++ v)).
  { clear. induction u as [|b u IHu]; intros v Hu Hv Hd; [ exact Hv | ]. inversion Hu; subst. cbn. constructor.
    - intros H. apply in_app_or in H. destruct H as [H|H]; [ contradiction | exact (Hd b (or_introl eq_refl) H) ].
    - apply IHu; [ assumption | exact Hv | intros c Hc; apply Hd; right; exact Hc ]. }
  apply G.
  - apply H1; left; reflexivity.
  - apply IH; [ exact Hd | intros y Hy; apply H1; right; exact Hy | intros y z b Hy Hz; apply H2; right; assumption ].
  - intros b Hb Hb'. apply in_flat_map in Hb'. destruct Hb' as (y & Hy & Hb').
    assert (x = y) by (apply (H2 x y b); [ left; reflexivity | right; exact Hy | exact Hb | exact Hb' ]). subst y. contradiction.
Qed.
Lemma NoDup_triples a b c : NoDup a -> NoDup b -> NoDup c -> NoDup (triples a b c).
Proof.
  intros Ha Hb Hc. unfold triples. apply NoDup_flat_map; [ exact Ha | | ].
  - intros x _. apply NoDup_flat_map; [ exact Hb | | ].
    + intros y _. apply FinFun.Injective_map_NoDup; [ | exact Hc ]. intros z z' E. congruence.
    + intros y y' z _ _ H H'. apply in_map_iff in H, H'. destruct H as (? & E & _), H' as (? & E' & _). congruence.
  - intros x x' z _ _ H H'. apply in_flat_map in H, H'. destruct H as (? & _ & H), H' as (? & _ & H').
    apply in_map_iff in H, H'. destruct H as (? & E & _), H' as (? & E' & _). congruence.
Qed.
Lemma NoDup_upto lo hi : NoDup (upto lo hi).
Proof. rewrite upto_map. apply FinFun.Injective_map_NoDup; [ intros a b; lia | apply seq_NoDup ]. Qed.
Lemma ofold_triples {S} (f : S -> Z * Z * Z -> outcome S) a b c s :
  ofold f (triples a b c) s = ofold (fun s x => ofold (fun s y => ofold (fun s z => f s (x, y, z)) c s) b s) a s.
Proof. symmetry. unfold triples. apply ofold_flat. intros s1 x _. apply ofold_flat. intros s2 y _. rewrite ofold_map. reflexivity. Qed.

Lemma sim_zwr i v : sim Nat.eqb arr (fun _ : unit => True) (zwr i v (ret tt)) (fun a => zwrite a i v).
Proof.
  unfold zwr, zwrite. destruct (i <? 0)%Z; [ | apply sim_wr ]. intros m a a' _ H. discriminate.
Qed.
(* loops whose iterations write cells of one array *)
Lemma table_region {X} (body : nat -> unit -> X -> acc nat R unit) (g : list R -> X -> outcome (list R)) (W : X -> list nat) (all : list X) tab tab' assign sched :
  NoDup all -> (forall i j l, In i all -> In j all -> i <> j -> In l (W i) -> ~ In l (W j)) ->
  (forall t s i, In i all -> touches (fun l => In l (W i)) (fun _ => False) (body t s i)) ->
  (forall t t' s s' i, body t s i = body t' s' i) ->
  (forall i, In i all -> sim Nat.eqb arr (fun _ : unit => True) (body 0 tt i) (fun a => g a i)) ->
  ofold g all tab = Ok tab' -> Permutation (concat assign) all ->
  let threads := omp_for body (fun _ => tt) assign in
  let st := parallel Nat.eqb threads (nth_error tab) sched in
  ~ failed st /\ (forall l, ~ race_on (elog st) l) /\
  (finished st -> forall k, shared st k = nth_error tab' k) /\
  (exists more, finished (parallel Nat.eqb threads (nth_error tab) (sched ++ more))).
Proof.
  intros Hnd Hd Ht Hs Hsim E Hp. cbv zeta.
  assert (S1 := sim_fold Nat.eqb arr (fun _ : unit => True) (body 0) g all (fun s x Hx _ => match s with tt => Hsim x Hx end) tt I).
  destruct (S1 (nth_error tab) tab tab' (fun k => eq_refl) E) as (r & m' & E1 & _ & V1).
  destruct (independent_loop Nat.eqb eqb_spec_nat body W (fun _ => True) all (nth_error tab) Hnd Hd Ht tt I) with
    (assign := assign) (init := fun _ : nat => tt) (r := r) (mseq := m') (sched := sched) as (H1 & H2 & H3 & H4).
  - intros t t' s s' i m r1 m1 _ _ _ R. exists r1. rewrite (Hs t' t s' s i). split; [ exact R | exact I ].
  - exact Hp.
  - intros t. exact I.
  - exact E1.
  - split; [ exact H1 | ]. split; [ exact H2 | ]. split; [ | exact H4 ]. intros Fin k. rewrite (H3 Fin k). apply V1.
Qed.

Section Six.
Variable sixj : Z -> Z -> Z -> Z -> Z -> Z -> R.
Variable jm : Z.
Open Scope Z_scope.
Definition six_W (x : Z * Z * Z) : list nat := let '(a, b, c) := x in
  flat_map (fun d => flat_map (fun e => map (fun f => Z.to_nat (sixj_idx jm a b c d e f)) (upto 0 jm)) (upto 0 jm)) (upto 0 jm).
Lemma in_six_W a b c l : In l (six_W (a, b, c)) <-> exists d e f, 0 <= d <= jm /\ 0 <= e <= jm /\ 0 <= f <= jm /\ l = Z.to_nat (sixj_idx jm a b c d e f).
Proof.
  unfold six_W. split.
  - intros H. apply in_flat_map in H. destruct H as (d & H1 & H). apply in_flat_map in H. destruct H as (e & H2 & H).
    apply in_map_iff in H. destruct H as (f & <- & H3). rewrite in_upto in *. exists d, e, f. tauto.
  - intros (d & e & f & H1 & H2 & H3 & ->). apply in_flat_map. exists d. rewrite in_upto. split; [ exact H1 | ].
    apply in_flat_map. exists e. rewrite in_upto. split; [ exact H2 | ]. apply in_map_iff. exists f. rewrite in_upto. split; [ reflexivity | exact H3 ].
Qed.
Lemma sixj_region tab tab' assign sched : sixj_table sixj jm tab = Ok tab' -> Permutation (concat assign) (sixj_iters jm) ->
  let threads := omp_for (sixj_body sixj jm) (fun _ => tt) assign in
  let st := parallel Nat.eqb threads (nth_error tab) sched in
  ~ failed st /\ (forall l, ~ race_on (elog st) l) /\
  (finished st -> forall k, shared st k = nth_error tab' k) /\
  (exists more, finished (parallel Nat.eqb threads (nth_error tab) (sched ++ more))).
Proof.
  intros E Hp.
  apply table_region with (W := six_W) (all := sixj_iters jm)
    (g := fun t '(a, b, c) => ofold (fun t d => ofold (fun t e => ofold (fun t f => zwrite t (sixj_idx jm a b c d e f) (sixj a b c d e f)) (upto 0 jm) t) (upto 0 jm) t) (upto 0 jm) t).
  - apply NoDup_triples; apply NoDup_upto.
  - intros ((a & b) & c) ((a' & b') & c') l Ha Hb Hn H H'. unfold sixj_iters in *. rewrite in_triples, !in_upto in Ha, Hb.
    apply in_six_W in H, H'. destruct H as (d & e & f & Hd & He & Hf & El), H' as (d' & e' & f' & Hd' & He' & Hf' & El').
    assert (P : forall a b c d e f, 0 <= a <= jm -> 0 <= b <= jm -> 0 <= c <= jm -> 0 <= d <= jm -> 0 <= e <= jm -> 0 <= f <= jm -> 0 <= sixj_idx jm a b c d e f).
    { intros a0 b0 c0 d0 e0 f0 B1 B2 B3 B4 B5 B6. rewrite sixj_horner.
      assert (M : forall x y, 0 <= x -> 0 <= y -> 0 <= x * (jm + 1) + y) by (intros; nia). repeat apply M; lia. }
    assert (Ea : sixj_idx jm a b c d e f = sixj_idx jm a' b' c' d' e' f').
    { apply Z2Nat.inj; [ apply P; tauto | apply P; tauto | congruence ]. }
    rewrite !sixj_horner in Ea. apply Hn.
    apply radix in Ea; [ | lia | lia ]. destruct Ea as [Ea ->]. apply radix in Ea; [ | lia | lia ]. destruct Ea as [Ea ->].
    apply radix in Ea; [ | lia | lia ]. destruct Ea as [Ea ->]. apply radix in Ea; [ | lia | lia ]. destruct Ea as [Ea ->].
    apply radix in Ea; [ | lia | lia ]. destruct Ea as [-> ->]. reflexivity.
  - intros t [] ((a & b) & c) _. unfold sixj_body. apply touches_fold. intros [] d Hd. apply touches_fold. intros [] e He. apply touches_fold. intros [] f Hf.
    unfold zwr. destruct (_ <? 0); [ exact I | ]. cbn [touches]. split; [ | exact I ]. apply in_six_W. exists d, e, f. rewrite in_upto in *. tauto.
  - intros t t' [] [] x. reflexivity.
  - intros ((a & b) & c) _. unfold sixj_body. apply sim_fold; [ | exact I ]. intros [] d _ _. apply sim_fold; [ | exact I ]. intros [] e _ _.
    apply sim_fold; [ | exact I ]. intros [] f _ _. apply sim_zwr.
  - rewrite <- E. unfold sixj_iters. rewrite ofold_triples. reflexivity.
  - exact Hp.
Qed.
End Six.

Section Cg.
Variable threej : Z -> Z -> Z -> Z -> Z -> Z -> R.
Variable jm : Z.
Open Scope Z_scope.
Definition cg_W (x : Z * Z * Z) : list nat := let '(j1, j2, j3) := x in
  flat_map (fun m1 => map (fun m2 => Z.to_nat (cg_idx jm j1 j2 j3 m1 m2)) (upto (- j2) j2)) (upto (- j1) j1).
Lemma in_cg_W j1 j2 j3 l : In l (cg_W (j1, j2, j3)) <-> exists m1 m2, Z.abs m1 <= j1 /\ Z.abs m2 <= j2 /\ l = Z.to_nat (cg_idx jm j1 j2 j3 m1 m2).
Proof.
  unfold cg_W. split.
  - intros H. apply in_flat_map in H. destruct H as (m1 & H1 & H). apply in_map_iff in H. destruct H as (m2 & <- & H2).
    rewrite in_upto in *. exists m1, m2. split; [ lia | ]. split; [ lia | reflexivity ].
  - intros (m1 & m2 & H1 & H2 & ->). apply in_flat_map. exists m1. rewrite in_upto. split; [ lia | ]. apply in_map_iff. exists m2. rewrite in_upto. split; [ reflexivity | lia ].
Qed.
Lemma cg_region tab tab' assign sched : cg_table threej jm tab = Ok tab' -> Permutation (concat assign) (cg_iters jm) ->
  let threads := omp_for (cg_body (cg_fun threej) jm) (fun _ => tt) assign in
  let st := parallel Nat.eqb threads (nth_error tab) sched in
  ~ failed st /\ (forall l, ~ race_on (elog st) l) /\
  (finished st -> forall k, shared st k = nth_error tab' k) /\
  (exists more, finished (parallel Nat.eqb threads (nth_error tab) (sched ++ more))).
Proof.
  intros E Hp.
  apply table_region with (W := cg_W) (all := cg_iters jm)
    (g := fun t '(j1, j2, j3) => ofold (fun t m1 => ofold (fun t m2 => zwrite t (cg_idx jm j1 j2 j3 m1 m2) (cg_fun threej j1 j2 j3 m1 m2 (m1 + m2))) (upto (- j2) j2) t) (upto (- j1) j1) t).
  - apply NoDup_triples; apply NoDup_upto.
  - intros ((a & b) & c) ((a' & b') & c') l Ha Hb Hn H H'. unfold cg_iters in *. rewrite in_triples, !in_upto in Ha, Hb.
    apply in_cg_W in H, H'. destruct H as (m1 & m2 & H1 & H2 & El), H' as (m1' & m2' & H1' & H2' & El').
    assert (P : forall j1 j2 j3 m1 m2, 0 <= j1 <= jm -> 0 <= j2 <= jm -> 0 <= j3 <= 2 * jm -> Z.abs m1 <= j1 -> Z.abs m2 <= j2 -> 0 <= cg_idx jm j1 j2 j3 m1 m2).
    { intros j1 j2 j3 k1 k2 B1 B2 B3 B4 B5. rewrite cg_horner. destruct (jm_lt threej jm j1 k1 B1 B4) as [X1 _]. destruct (jm_lt threej jm j2 k2 B2 B5) as [X2 _]. assert (0 <= (j1 * j1 + j1 + k1) * ((jm + 1) * (jm + 1))) by (apply Z.mul_nonneg_nonneg; nia). apply Z.add_nonneg_nonneg; [ apply Z.mul_nonneg_nonneg; lia | lia ]. }
    assert (Ea : cg_idx jm a b c m1 m2 = cg_idx jm a' b' c' m1' m2').
    { apply Z2Nat.inj; [ apply P; tauto | apply P; tauto | congruence ]. }
    rewrite !cg_horner in Ea. apply Hn.
    apply radix in Ea; [ | lia | lia ]. destruct Ea as [Ea ->].
    apply radix in Ea; [ | apply (jm_lt threej); tauto | apply (jm_lt threej); tauto ]. destruct Ea as [E1 E2].
    apply (jm_inj threej) in E1; try lia. apply (jm_inj threej) in E2; try lia. destruct E1 as [-> _], E2 as [-> _]. reflexivity.
  - intros t [] ((a & b) & c) Hx. unfold cg_body. apply touches_fold. intros [] m1 H1. apply touches_fold. intros [] m2 H2.
    unfold zwr. destruct (_ <? 0); [ exact I | ]. cbn [touches]. split; [ | exact I ]. apply in_cg_W. exists m1, m2. rewrite in_upto in *.
    split; [ lia | ]. split; [ lia | reflexivity ].
  - intros t t' [] [] x. reflexivity.
  - intros ((a & b) & c) _. unfold cg_body. apply sim_fold; [ | exact I ]. intros [] m1 _ _. apply sim_fold; [ | exact I ]. intros [] m2 _ _. apply sim_zwr.
  - rewrite <- E. unfold cg_iters. rewrite ofold_triples. reflexivity.
  - exact Hp.
Qed.
End Cg.
