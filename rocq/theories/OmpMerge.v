(* The loops of the merge: every thread does the whole loop. *)
From Coq Require Import String Reals Permutation.
From Verif Require Import Common ArrayLib PioModel OmpModel OmpProofs OmpRegions.
From Verif Require PRunModel PRunProofs.
Open Scope nat_scope.
Open Scope list_scope.

Section Fill.
Context {A : Type}.
Variable f : nat -> A.
Variable n : nat.
Definition fill_from (k : nat) : acc nat A unit := afold (fun _ i => Wr i (f i) (ret tt)) (seq k (n - k)) tt.
Lemma fill_end : fill_from n = Done (Ok tt).
Proof. unfold fill_from. rewrite Nat.sub_diag. reflexivity. Qed.
Lemma fill_next k : k < n -> fill_from k = Wr k (f k) (fill_from (S k)).
Proof. intros H. unfold fill_from. replace (n - k) with (S (n - S k)) by lia. reflexivity. Qed.

Variable T : nat.
Variable m0 : memory nat A.
Hypothesis alloc : forall i, i < n -> m0 i <> None.
(* position of every thread *)
Definition inv (pos : nat -> nat) (st : state nat A unit) : Prop :=
  (forall t, pos t <= n) /\ length (threads st) = T /\
  (forall t, t < T -> nth_error (threads st) t = Some (fill_from (pos t))) /\
  (forall t l w, In (t, (l, w)) (elog st) <-> t < T /\ w = true /\ l < pos t) /\
  (forall i, (exists t, t < T /\ i < pos t) -> shared st i = Some (f i)) /\
  (forall i, (forall t, t < T -> pos t <= i) -> shared st i = m0 i).
Lemma inv_init : inv (fun _ => 0) (mkst (omp_all T (fun _ => fill_from 0)) m0 []).
Proof.
  unfold inv, omp_all. cbn [threads shared elog]. split; [ lia | ]. split; [ rewrite map_length, seq_length; reflexivity | ].
  split; [ | split; [ | split ] ].
  - intros t Ht. rewrite nth_error_map. rewrite (nth_error_nth' _ 0) by (rewrite seq_length; exact Ht). reflexivity.
  - intros t l w. split; [ intros [] | lia ].
  - intros i (t & _ & H). lia.
  - reflexivity.
Qed.
Lemma inv_alloc pos st : inv pos st -> forall i, i < n -> shared st i <> None.
Proof.
  intros (P0 & P1 & P2 & P3 & P4 & P5) i Hi.
  assert (D : (exists t, t < T /\ i < pos t) \/ (forall t, t < T -> pos t <= i)).
  { clear -T. induction T as [|k IH]; [ right; lia | ]. destruct IH as [(t & H & H')|IH]; [ left; exists t; lia | ].
    destruct (le_lt_dec (pos k) i); [ right | left; exists k; lia ]. intros t Ht. destruct (Nat.eq_dec t k) as [->|]; [ assumption | apply IH; lia ]. }
  destruct D as [D|D]; [ rewrite (P4 i D); discriminate | rewrite (P5 i D); apply alloc, Hi ].
Qed.
Lemma inv_turn pos st t : inv pos st -> exists pos', inv pos' (turn Nat.eqb st t) /\ (forall u, pos u <= pos' u).
Proof.
  intros I. assert (Al := inv_alloc _ _ I). destruct I as (P0 & P1 & P2 & P3 & P4 & P5).
  destruct (le_lt_dec T t) as [Ht|Ht].
  { exists pos. split; [ | lia ]. unfold turn. replace (nth_error (threads st) t) with (@None (acc nat A unit)) by (symmetry; apply nth_error_None; lia).
    exact (conj P0 (conj P1 (conj P2 (conj P3 (conj P4 P5))))). }
  unfold turn. rewrite (P2 t Ht).
  destruct (Nat.eq_dec (pos t) n) as [En|En].
  { exists pos. split; [ | lia ]. rewrite En, fill_end. cbn [step fst snd access].
    unfold inv. cbn [threads shared elog]. split; [ exact P0 | ]. split; [ rewrite PRunProofs.set_nth_length; exact P1 | ].
    split; [ | split; [ exact P3 | split; [ exact P4 | exact P5 ] ] ].
    intros u Hu. rewrite PRunProofs.set_nth_spec. destruct (Nat.eqb_spec u t) as [->|]; [ | apply P2, Hu ].
    rewrite (P2 t Ht). rewrite En, fill_end. reflexivity. }
  assert (Lt : pos t < n) by (specialize (P0 t); lia).
  exists (fun u => if u =? t then S (pos t) else pos u). split; [ | intros u; destruct (Nat.eqb_spec u t) as [->|]; lia ].
  rewrite (fill_next _ Lt). cbn [step fst snd access].
  destruct (shared st (pos t)) as [v0|] eqn:Ev; [ | exfalso; exact (Al _ Lt Ev) ]. cbn [fst snd].
  unfold inv. cbn [threads shared elog]. split; [ intros u; destruct (u =? t); [ lia | apply P0 ] | ].
  split; [ rewrite PRunProofs.set_nth_length; exact P1 | ]. split; [ | split; [ | split ] ].
  - intros u Hu. rewrite PRunProofs.set_nth_spec. destruct (Nat.eqb_spec u t) as [->|]; [ rewrite (P2 t Ht); reflexivity | apply P2, Hu ].
  - intros u l w. cbn [In]. rewrite P3. destruct (Nat.eqb_spec u t) as [->|Hn].
    + split.
      * intros [H|(H1 & H2 & H3)]; [ injection H as <- <-; split; [ exact Ht | split; [ reflexivity | lia ] ] | split; [ exact H1 | split; [ exact H2 | lia ] ] ].
      * intros (H1 & -> & H3). destruct (Nat.eq_dec l (pos t)) as [->|]; [ left; reflexivity | right ]. split; [ exact H1 | split; [ reflexivity | lia ] ].
    + split; [ intros [H|H]; [ congruence | exact H ] | intros H; right; exact H ].
  - intros i (u & Hu & Hi). unfold update. destruct (Nat.eqb_spec i (pos t)) as [->|Hn]; [ reflexivity | ].
    apply P4. exists u. split; [ exact Hu | ]. destruct (Nat.eqb_spec u t) as [Eu|Eu] in Hi; [ subst u | ]; lia.
  - intros i H. assert (Hi := H t Ht). rewrite Nat.eqb_refl in Hi. rewrite (update_other Nat.eqb eqb_spec_nat) by lia.
    apply P5. intros u Hu. specialize (H u Hu). cbv beta in H. destruct (Nat.eqb_spec u t) as [Eu|Eu] in H; [ subst u | ]; lia.
Qed.
Lemma inv_run : forall sched pos st, inv pos st -> exists pos', inv pos' (fold_left (turn Nat.eqb) sched st).
Proof.
  induction sched as [|t s IH]; intros pos st I; [ exists pos; exact I | ]. destruct (inv_turn pos st t I) as (p & I' & _). exact (IH p _ I').
Qed.
Lemma inv_finished pos st : inv pos st -> finished st -> forall t, t < T -> pos t = n.
Proof.
  intros (P0 & P1 & P2 & _) F t Ht. destruct (F t _ (P2 t Ht)) as [a Ha]. destruct (Nat.eq_dec (pos t) n) as [|Hn]; [ assumption | ].
  rewrite fill_next in Ha by (specialize (P0 t); lia). discriminate.
Qed.
(* all threads write the same values: the result does not depend on the schedule although every cell is raced for *)
Theorem fill_region sched : let st := parallel Nat.eqb (omp_all T (fun _ => fill_from 0)) m0 sched in
  ~ failed st /\
  (forall i, shared st i = m0 i \/ (i < n /\ shared st i = Some (f i))) /\
  (finished st -> 1 <= T -> forall i, shared st i = if i <? n then Some (f i) else m0 i) /\
  (finished st -> 2 <= T -> forall i, i < n -> race_on (elog st) i) /\
  (exists more, finished (parallel Nat.eqb (omp_all T (fun _ => fill_from 0)) m0 (sched ++ more))).
Proof.
  cbv zeta. destruct (inv_run sched _ _ inv_init) as (pos & I). fold (parallel Nat.eqb (omp_all T (fun _ => fill_from 0)) m0 sched) in I.
  set (st := parallel Nat.eqb (omp_all T (fun _ => fill_from 0)) m0 sched) in *.
  assert (NF : forall p s, inv p s -> ~ failed s).
  { intros p s (P0 & P1 & P2 & _) (t & o & Ho & Hb). assert (Ht : t < T) by (rewrite <- P1; apply nth_error_Some; congruence).
    rewrite (P2 t Ht) in Ho. destruct (Nat.eq_dec (p t) n) as [E|E].
    - rewrite E, fill_end in Ho. injection Ho as <-. exact (Hb tt eq_refl).
    - rewrite fill_next in Ho by (specialize (P0 t); lia). discriminate. }
  split; [ exact (NF _ _ I) | ]. split; [ | split; [ | split ] ].
  - destruct I as (P0 & P1 & P2 & P3 & P4 & P5). intros i.
    assert (D : (exists t, t < T /\ i < pos t) \/ (forall t, t < T -> pos t <= i)).
    { clear -T. induction T as [|k IH]; [ right; lia | ]. destruct IH as [(t & H & H')|IH]; [ left; exists t; lia | ].
      destruct (le_lt_dec (pos k) i); [ right | left; exists k; lia ]. intros t Ht. destruct (Nat.eq_dec t k) as [->|]; [ assumption | apply IH; lia ]. }
    destruct D as [D|D]; [ right | left; exact (P5 i D) ]. split; [ | exact (P4 i D) ]. destruct D as (t & _ & H). specialize (P0 t). lia.
  - intros F HT i. assert (Pn := inv_finished _ _ I F). destruct I as (P0 & P1 & P2 & P3 & P4 & P5).
    destruct (Nat.ltb_spec i n) as [Hi|Hi].
    + apply P4. exists 0. split; [ lia | ]. rewrite Pn; lia.
    + apply P5. intros t Ht. specialize (P0 t). lia.
  - intros F HT i Hi. assert (Pn := inv_finished _ _ I F). destruct I as (P0 & P1 & P2 & P3 & P4 & P5).
    exists 0, 1, true, true. split; [ lia | ]. split; [ apply P3; rewrite Pn; lia | ]. split; [ apply P3; rewrite Pn; lia | left; reflexivity ].
  - destruct (all_end Nat.eqb T st) as [more Hm]. exists more. intros t p Hp. unfold parallel in Hp |- *. rewrite fold_left_app in Hp.
    fold (parallel Nat.eqb (omp_all T (fun _ => fill_from 0)) m0 sched) in Hp. fold st in Hp.
    destruct (inv_run more _ _ I) as (pos' & I').
    assert (Ht : t < T). { destruct I' as (_ & L & _). rewrite <- L. apply nth_error_Some. congruence. }
    destruct (Hm t p Ht Hp) as [o ->]. destruct o as [x| | |]; [ exists x; reflexivity | | | ]; exfalso; apply (NF _ _ I'); eexists t, _; (split; [ exact Hp | discriminate ]).
Qed.
End Fill.

(* the two kinds of loops are such fillings *)
Lemma fill_ext {A} (f : nat -> A) (g : unit -> nat -> acc nat A unit) l : (forall i, In i l -> g tt i = Wr i (f i) (ret tt)) ->
  afold g l tt = afold (fun _ i => Wr i (f i) (ret tt)) l tt.
Proof.
  induction l as [|x l IH]; intros H; [ reflexivity | ]. cbn [afold]. rewrite (H x (or_introl eq_refl)). cbn [abind ret]. f_equal.
  apply IH. intros i Hi. apply H. right. exact Hi.
Qed.
Lemma aread_nth_error {A} (l : list A) i v : aread l i = Ok v -> nth_error l i = Some v.
Proof. unfold aread. destruct (nth_error l i); [ congruence | discriminate ]. Qed.

Section Gather.
Context {A : Type}.
Variables (src : list A) (ord : list nat).
Lemma gathered : forall out pre, ofold (fun acc i => do e <- aread src i; Ok (acc ++ [e])) ord pre = Ok out ->
  exists vs, out = pre ++ vs /\ length vs = length ord /\
    forall i k, nth_error ord i = Some k -> exists v, nth_error src k = Some v /\ nth_error vs i = Some v.
Proof.
  induction ord as [|x r IH]; intros out pre E; cbn [ofold] in E.
  - injection E as <-. exists []. rewrite app_nil_r. split; [ reflexivity | ]. split; [ reflexivity | ]. intros [|i] k H; discriminate.
  - destruct (aread src x) as [e| | |] eqn:Ex; try discriminate. cbn [obind] in E. destruct (IH out (pre ++ [e]) E) as (vs & -> & L & H).
    exists (e :: vs). split; [ rewrite <- app_assoc; reflexivity | ]. split; [ cbn; rewrite L; reflexivity | ].
    intros [|i] k Hk; cbn in Hk |- *; [ | exact (H i k Hk) ]. injection Hk as <-. exists e. split; [ exact (aread_nth_error _ _ _ Ex) | reflexivity ].
Qed.
(* l.1107-1111, 1124-1128, 1135-1139: tmp[i] = src[ord[i]] by T threads *)
Theorem gather_region (d : A) (tmp : list A) out T sched :
  ofold (fun acc i => do e <- aread src i; Ok (acc ++ [e])) ord [] = Ok out -> length tmp = length ord ->
  let threads := omp_all T (fun _ => gather_prog src ord (length ord)) in
  let st := parallel Nat.eqb threads (nth_error tmp) sched in
  ~ failed st /\
  (forall i, shared st i = nth_error tmp i \/ shared st i = nth_error out i) /\
  (finished st -> 1 <= T -> forall i, shared st i = nth_error out i) /\
  (finished st -> 2 <= T -> forall i, i < length ord -> race_on (elog st) i) /\
  (exists more, finished (parallel Nat.eqb threads (nth_error tmp) (sched ++ more))).
Proof.
  intros E Hl. destruct (gathered out [] E) as (vs & Ev & L & H). cbn in Ev. subst vs.
  assert (G : gather_prog src ord (length ord) = fill_from (fun i => nth i out d) (length ord) 0).
  { unfold gather_prog, fill_from. rewrite Nat.sub_0_r. apply fill_ext. intros i Hi. apply in_seq in Hi.
    destruct (nth_error ord i) as [k|] eqn:Ek; [ | apply nth_error_None in Ek; lia ]. destruct (H i k Ek) as (v & H1 & H2).
    unfold aread. rewrite Ek. cbn [abind]. rewrite H1. cbn [abind]. rewrite (nth_error_nth _ _ d H2). reflexivity. }
  rewrite G. cbv zeta.
  destruct (fill_region (fun i => nth i out d) (length ord) T (nth_error tmp)) with (sched := sched) as (H1 & H2 & H3 & H4 & H5).
  { intros i Hi. apply nth_error_Some. lia. }
  split; [ exact H1 | ]. split; [ | split; [ | split; [ exact H4 | exact H5 ] ] ].
  - intros i. destruct (H2 i) as [->|(Hi & ->)]; [ left; reflexivity | right ]. symmetry. apply nth_error_nth'. lia.
  - intros F HT i. rewrite (H3 F HT i). destruct (Nat.ltb_spec i (length ord)) as [Hi|Hi].
    + symmetry. apply nth_error_nth'. lia.
    + transitivity (@None A); [ apply nth_error_None; lia | symmetry; apply nth_error_None; lia ].
Qed.
End Gather.

(* l.1057-1070: the one-dimensional indices *)
Section Coo.
Context {V : Type}.
Variables (D : Z) (all : list (elem V)).
Definition coo_of (e : elem V) : Z := (e_row V e * D + e_col V e)%Z.
Theorem coo_region (vec : list Z) T sched :
  ofold (fun _ e => if index_ok V D e then Ok tt else Err) all tt = Ok tt -> length vec = length all ->
  let threads := omp_all T (fun _ => coo_prog D all (length all)) in
  let st := parallel Nat.eqb threads (nth_error vec) sched in
  ~ failed st /\
  (finished st -> 1 <= T -> forall i, shared st i = nth_error (map coo_of all) i) /\
  (finished st -> 2 <= T -> forall i, i < length all -> race_on (elog st) i) /\
  (exists more, finished (parallel Nat.eqb threads (nth_error vec) (sched ++ more))).
Proof.
  intros E Hl.
  assert (Hok : forall e, In e all -> index_ok V D e = true).
  { clear Hl. induction all as [|x l IH]; intros e He; [ destruct He | ]. cbn [ofold] in E. destruct (index_ok V D x) eqn:Ex; [ | discriminate ].
    destruct He as [<-|He]; [ exact Ex | exact (IH E e He) ]. }
  assert (G : coo_prog D all (length all) = fill_from (fun i => nth i (map coo_of all) 0%Z) (length all) 0).
  { unfold coo_prog, fill_from. rewrite Nat.sub_0_r. apply fill_ext. intros i Hi. apply in_seq in Hi.
    destruct (nth_error all i) as [e|] eqn:Ek; [ | apply nth_error_None in Ek; lia ].
    unfold aread. rewrite Ek. cbn [abind]. rewrite (Hok e (nth_error_In _ _ Ek)).
    assert (Q : nth_error (map coo_of all) i = Some (coo_of e)) by (rewrite nth_error_map, Ek; reflexivity).
    rewrite (nth_error_nth _ _ 0%Z Q). reflexivity. }
  rewrite G. cbv zeta.
  destruct (fill_region (fun i => nth i (map coo_of all) 0%Z) (length all) T (nth_error vec)) with (sched := sched) as (H1 & H2 & H3 & H4 & H5).
  { intros i Hi. apply nth_error_Some. lia. }
  split; [ exact H1 | ]. split; [ | split; [ exact H4 | exact H5 ] ].
  intros F HT i. rewrite (H3 F HT i). destruct (Nat.ltb_spec i (length all)) as [Hi|Hi].
  - symmetry. apply nth_error_nth'. rewrite map_length. exact Hi.
  - transitivity (@None Z); [ apply nth_error_None; lia | symmetry; apply nth_error_None; rewrite map_length; exact Hi ].
Qed.
End Coo.
