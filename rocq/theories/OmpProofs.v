From Coq Require Import Permutation.
From Verif Require Import Common ArrayLib OmpModel.
From Verif Require PRunModel PRunProofs.
Open Scope nat_scope.
Open Scope list_scope.

Lemma NoDup_app_l {Y} (a b : list Y) : NoDup (a ++ b) -> NoDup a.
Proof. induction a as [|x a IH]; intros H; [ constructor | ]. cbn in H. inversion H as [|? ? Hn Hd]; subst. constructor; [ intros Hx; apply Hn, in_or_app; left; exact Hx | apply IH, Hd ]. Qed.
Lemma NoDup_app_r {Y} (a b : list Y) : NoDup (a ++ b) -> NoDup b.
Proof. induction a as [|x a IH]; intros H; [ exact H | ]. cbn in H. inversion H; subst. apply IH; assumption. Qed.

Section Gen.
Context {L V : Type}.
Variable leqb : L -> L -> bool.
Hypothesis leqb_spec : forall a b, reflect (a = b) (leqb a b).
Notation acc := (acc L V).
Notation memory := (memory L V).
Notation run := (run leqb).
Notation step := (step leqb).
Notation update := (update leqb).

Lemma update_same (m : memory) l v : update m l v l = Some v.
Proof. unfold OmpModel.update. destruct (leqb_spec l l); congruence. Qed.
Lemma update_other (m : memory) l v x : x <> l -> update m l v x = m x.
Proof. intros H. unfold OmpModel.update. destruct (leqb_spec x l); congruence. Qed.

Fixpoint steps {A} (n : nat) (c : acc A * memory) : acc A * memory := match n with O => c | S m => steps m (step c) end.
Lemma steps_done {A} n (o : outcome A) m : steps n (Done o, m) = (Done o, m).
Proof. induction n as [|n IH]; [ reflexivity | exact IH ]. Qed.
Lemma run_step {A} (p : acc A) m : run (fst (step (p, m))) (snd (step (p, m))) = run p m.
Proof. destruct p as [o | l k | l v k]; cbn; [ reflexivity | destruct (m l); reflexivity | destruct (m l); reflexivity ]. Qed.
Lemma run_steps {A} n : forall (p : acc A) m, run (fst (steps n (p, m))) (snd (steps n (p, m))) = run p m.
Proof.
  induction n as [|n IH]; intros p m; [ reflexivity | ]. cbn [steps]. destruct (step (p, m)) as [p' m'] eqn:E.
  rewrite IH. assert (H := run_step p m). rewrite E in H. exact H.
Qed.
(* some number of own steps brings a thread to its end *)
Lemma steps_end {A} (p : acc A) : forall m, exists n, steps n (p, m) = (Done (fst (run p m)), snd (run p m)).
Proof.
  induction p as [o | l k IH | l v k IH]; intros m.
  - exists 0. reflexivity.
  - cbn [OmpModel.run]. destruct (m l) as [v|] eqn:E.
    + destruct (IH v m) as [n Hn]. exists (S n). cbn [steps]. unfold OmpModel.step at 1. cbn [fst snd]. rewrite E. exact Hn.
    + exists 1. cbn [steps]. unfold OmpModel.step. cbn [fst snd]. rewrite E. reflexivity.
  - cbn [OmpModel.run]. destruct (m l) as [v0|] eqn:E.
    + destruct (IH (update m l v)) as [n Hn]. exists (S n). cbn [steps]. unfold OmpModel.step at 1. cbn [fst snd]. rewrite E. exact Hn.
    + exists 1. cbn [steps]. unfold OmpModel.step. cbn [fst snd]. rewrite E. reflexivity.
Qed.
Lemma run_bind {A B} (p : acc A) (g : A -> acc B) : forall m, run (abind p g) m =
  match run p m with (Ok a, m') => run (g a) m' | (Err, m') => (Err, m') | (Exc, m') => (Exc, m') | (UB, m') => (UB, m') end.
Proof.
  induction p as [o | l k IH | l v k IH]; intros m.
  - destruct o; reflexivity.
  - cbn [abind OmpModel.run]. destruct (m l); [ apply IH | reflexivity ].
  - cbn [abind OmpModel.run]. destruct (m l); [ apply IH | reflexivity ].
Qed.
Lemma run_bind_ok {A B} (p : acc A) (g : A -> acc B) m a m' : run p m = (Ok a, m') -> run (abind p g) m = run (g a) m'.
Proof. intros H. rewrite run_bind, H. reflexivity. Qed.

(* where a thread may write and read; reads of [dead] locations do not influence it *)
Fixpoint touches {A} (F dead : L -> Prop) (p : acc A) : Prop :=
  match p with
  | Done _ => True
  | Rd l k => (F l /\ forall v, touches F dead (k v)) \/ (dead l /\ (forall v v', k v = k v') /\ forall v, touches F dead (k v))
  | Wr l _ k => F l /\ touches F dead k
  end.
Definition agree (F : L -> Prop) (m m' : memory) : Prop := forall l, F l -> m l = m' l.
Definition same_alloc (m m' : memory) : Prop := forall l, m l = None <-> m' l = None.
Lemma same_alloc_refl m : same_alloc m m. Proof. intros l. reflexivity. Qed.
Lemma same_alloc_sym m m' : same_alloc m m' -> same_alloc m' m. Proof. intros H l. symmetry. apply H. Qed.
Lemma same_alloc_trans m m' m2 : same_alloc m m' -> same_alloc m' m2 -> same_alloc m m2. Proof. intros H H' l. rewrite (H l). apply H'. Qed.
Lemma agree_sym F m m' : agree F m m' -> agree F m' m. Proof. intros H l Hl. symmetry. apply H, Hl. Qed.
Lemma agree_trans F m m' m2 : agree F m m' -> agree F m' m2 -> agree F m m2. Proof. intros H H' l Hl. rewrite (H l Hl). apply H', Hl. Qed.

Lemma touches_mono {A} (F F' dead : L -> Prop) (p : acc A) : (forall l, F l -> F' l) -> touches F dead p -> touches F' dead p.
Proof.
  intros H. induction p as [o | l k IH | l v k IH]; cbn; [ trivial | | ].
  - intros [[H1 H2]|(H1 & H2 & H3)]; [ left | right ]; repeat split; auto.
  - intros [H1 H2]. split; auto.
Qed.
Lemma touches_bind {A B} F dead (p : acc A) (g : A -> acc B) : touches F dead p -> (forall a, touches F dead (g a)) -> touches F dead (abind p g).
Proof.
  intros Hp Hg. induction p as [o | l k IH | l v k IH]; cbn.
  - destruct o; cbn; auto.
  - destruct Hp as [[H1 H2]|(H1 & H2 & H3)]; [ left; split; auto | right; split; [ exact H1 | ]; split; [ | auto ] ].
    intros v v'. rewrite (H2 v v'). reflexivity.
  - destruct Hp; auto.
Qed.
Lemma touches_fold {S X} F dead (f : S -> X -> acc S) l : (forall s x, In x l -> touches F dead (f s x)) -> forall s, touches F dead (afold f l s).
Proof.
  induction l as [|x l IH]; intros Hf s; [ exact I | ]. cbn. apply touches_bind; [ apply Hf; left; reflexivity | ].
  intros s'. apply IH. intros s0 y Hy. apply Hf. right; exact Hy.
Qed.
Lemma touches_step {A} F dead (p : acc A) m : touches F dead p -> touches F dead (fst (step (p, m))).
Proof.
  destruct p as [o | l k | l v k]; cbn; intros H; [ exact I | | ].
  - destruct (m l) as [v|]; [ | exact I ]. destruct H as [[_ H]|(_ & _ & H)]; apply H.
  - destruct (m l); [ apply H | exact I ].
Qed.
Lemma alloc_update (m : memory) l v v0 : m l = Some v0 -> same_alloc m (update m l v).
Proof. intros H x. unfold OmpModel.update. destruct (leqb_spec x l) as [->|]; [ rewrite H; split; discriminate | reflexivity ]. Qed.
Lemma alloc_step {A} (p : acc A) m : same_alloc m (snd (step (p, m))).
Proof.
  destruct p as [o | l k | l v k]; cbn; [ apply same_alloc_refl | destruct (m l); apply same_alloc_refl | ].
  destruct (m l) as [v0|] eqn:E; [ exact (alloc_update m l v v0 E) | apply same_alloc_refl ].
Qed.
Lemma alloc_steps {A} n : forall (p : acc A) m, same_alloc m (snd (steps n (p, m))).
Proof.
  induction n as [|n IH]; intros p m; [ apply same_alloc_refl | ]. cbn [steps]. assert (H := alloc_step p m).
  destruct (step (p, m)) as [p1 m1]. exact (same_alloc_trans _ _ _ H (IH p1 m1)).
Qed.
Lemma step_agree {A} F dead (p : acc A) m m' : touches F dead p -> agree F m m' -> same_alloc m m' ->
  fst (step (p, m)) = fst (step (p, m')) /\ agree F (snd (step (p, m))) (snd (step (p, m'))).
Proof.
  destruct p as [o | l k | l v k]; cbn; intros Ht Ha Hs.
  - split; [ reflexivity | exact Ha ].
  - destruct Ht as [[Hl _]|(_ & Hk & _)].
    + rewrite <- (Ha l Hl). destruct (m l); split; try reflexivity; exact Ha.
    + assert (Hn := Hs l). destruct (m l) as [v|], (m' l) as [v'|]; cbn; try (destruct Hn as [H1 H2]; (discriminate (H1 eq_refl) || discriminate (H2 eq_refl))).
      * split; [ apply Hk | exact Ha ].
      * split; [ reflexivity | exact Ha ].
  - destruct Ht as [Hl _]. rewrite <- (Ha l Hl). destruct (m l); cbn; (split; [ reflexivity | ]); [ | exact Ha ].
    intros x Hx. unfold OmpModel.update. destruct (leqb x l); [ reflexivity | apply Ha, Hx ].
Qed.
Lemma steps_agree {A} F dead n : forall (p : acc A) m m', touches F dead p -> agree F m m' -> same_alloc m m' ->
  fst (steps n (p, m)) = fst (steps n (p, m')) /\ agree F (snd (steps n (p, m))) (snd (steps n (p, m'))).
Proof.
  induction n as [|n IH]; intros p m m' Ht Ha Hs; [ split; [ reflexivity | exact Ha ] | ]. cbn [steps].
  destruct (step_agree F dead p m m' Ht Ha Hs) as [E1 E2]. assert (Ht' := touches_step F dead p m Ht).
  assert (S1 := alloc_step p m). assert (S2 := alloc_step p m').
  destruct (step (p, m)) as [p1 m1], (step (p, m')) as [p2 m2]. cbn [fst snd] in *. subst p2. apply IH; try assumption.
  exact (same_alloc_trans _ _ _ (same_alloc_sym _ _ S1) (same_alloc_trans _ _ _ Hs S2)).
Qed.
Lemma step_frame {A} F dead (p : acc A) m l : touches F dead p -> ~ F l -> snd (step (p, m)) l = m l.
Proof.
  destruct p as [o | l' k | l' v k]; cbn; intros Ht Hn; [ reflexivity | destruct (m l'); reflexivity | ].
  destruct (m l'); [ | reflexivity ]. cbn. apply update_other. intros ->. tauto.
Qed.
Lemma steps_frame {A} F dead n : forall (p : acc A) m l, touches F dead p -> ~ F l -> snd (steps n (p, m)) l = m l.
Proof.
  induction n as [|n IH]; intros p m l Ht Hn; [ reflexivity | ]. cbn [steps]. rewrite <- (step_frame F dead p m l Ht Hn).
  assert (Ht' := touches_step F dead p m Ht). destruct (step (p, m)) as [p1 m1]. apply IH; assumption.
Qed.
Lemma run_frame {A} F dead (p : acc A) m l : touches F dead p -> ~ F l -> snd (run p m) l = m l.
Proof. intros Ht Hn. destruct (steps_end p m) as [n E]. assert (H := steps_frame F dead n p m l Ht Hn). rewrite E in H. exact H. Qed.
Lemma run_alloc {A} (p : acc A) m : same_alloc m (snd (run p m)).
Proof. destruct (steps_end p m) as [n E]. assert (H := alloc_steps n p m). rewrite E in H. exact H. Qed.
Lemma run_agree {A} F dead (p : acc A) m m' : touches F dead p -> agree F m m' -> same_alloc m m' ->
  fst (run p m) = fst (run p m') /\ agree F (snd (run p m)) (snd (run p m')).
Proof.
  intros Ht Ha Hs. destruct (steps_end p m) as [n E]. destruct (steps_agree F dead n p m m' Ht Ha Hs) as [H1 H2].
  assert (R := run_steps n p m'). rewrite E in H1, H2. cbn [fst snd] in *.
  destruct (steps n (p, m')) as [p' m2]. cbn [fst snd] in *. subst p'. cbn in R. rewrite <- R. cbn. split; [ reflexivity | exact H2 ].
Qed.

(* the machine *)
Notation turn := (turn leqb).
Lemma turn_length {A} (st : state L V A) t : length (threads (turn st t)) = length (threads st).
Proof. unfold OmpModel.turn. destruct (nth_error (threads st) t); [ apply PRunProofs.set_nth_length | reflexivity ]. Qed.
Lemma parallel_length {A} sched : forall (st : state L V A), length (threads (fold_left turn sched st)) = length (threads st).
Proof. induction sched as [|t sched IH]; intros st; [ reflexivity | ]. cbn [fold_left]. rewrite IH. apply turn_length. Qed.

Lemma interleave_solo {A} (F : nat -> L -> Prop) (dead : L -> Prop) sched : forall (ps : list (acc A)) m lg,
  (forall i p, nth_error ps i = Some p -> touches (F i) dead p) ->
  (forall i j l, i < length ps -> j < length ps -> i <> j -> F i l -> ~ F j l) ->
  let st := fold_left turn sched (mkst ps m lg) in
  (forall i p, nth_error ps i = Some p -> exists k, nth_error (threads st) i = Some (fst (steps k (p, m))) /\ agree (F i) (snd (steps k (p, m))) (shared st)) /\
  (forall l, (forall i, i < length ps -> ~ F i l) -> shared st l = m l) /\
  same_alloc m (shared st) /\
  (forall t l w, In (t, (l, w)) (elog st) -> In (t, (l, w)) lg \/ (t < length ps /\ (F t l \/ (w = false /\ dead l)))).
Proof.
  induction sched as [|t sched IH]; intros ps m lg Ht Hd st.
  - subst st. cbn. repeat split; auto; try tauto. intros i p Hp. exists 0. split; [ exact Hp | intros l _; reflexivity ].
  - subst st. cbn [fold_left]. remember (turn (mkst ps m lg) t) as st1 eqn:E1. unfold OmpModel.turn in E1. cbn [threads shared elog] in E1.
    destruct (nth_error ps t) as [p|] eqn:Ep; [ | rewrite E1; exact (IH ps m lg Ht Hd) ].
    assert (Tp := Ht t p Ep). assert (Lt : t < length ps) by (apply nth_error_Some; congruence).
    assert (Tp' := touches_step (F t) dead p m Tp). assert (Al := alloc_step p m).
    destruct (step (p, m)) as [p1 m1] eqn:Es. cbn [fst snd] in *. cbv zeta in E1.
    rewrite E1. set (lg1 := match access p with Some e => (t, e) :: lg | None => lg end).
    destruct (IH (PRunModel.set_nth ps t p1) m1 lg1) as (I1 & I2 & I3 & I4).
    { intros i q Hq. rewrite PRunProofs.set_nth_spec, Ep in Hq. destruct (Nat.eqb_spec i t) as [->|Hi]; [ injection Hq as <-; exact Tp' | apply (Ht i q Hq) ]. }
    { rewrite PRunProofs.set_nth_length. exact Hd. }
    rewrite PRunProofs.set_nth_length in I2, I4. split; [ | split; [ | split ] ].
    + intros i q Hq. destruct (Nat.eq_dec i t) as [->|Hi].
      * assert (q = p) by congruence. subst q. destruct (I1 t p1) as (k & G1 & G2); [ rewrite PRunProofs.set_nth_spec, Nat.eqb_refl, Ep; reflexivity | ].
        exists (Datatypes.S k). cbn [steps]. rewrite Es. split; assumption.
      * destruct (I1 i q) as (k & E2 & E3); [ rewrite PRunProofs.set_nth_spec; apply Nat.eqb_neq in Hi; rewrite Hi; exact Hq | ].
        assert (Li : i < length ps) by (apply nth_error_Some; congruence).
        assert (Ag : agree (F i) m m1).
        { intros n Hn. assert (Fr := step_frame (F t) dead p m n Tp (Hd i t n Li Lt Hi Hn)). rewrite Es in Fr. symmetry. exact Fr. }
        destruct (steps_agree (F i) dead k q m m1 (Ht i q Hq) Ag Al) as [G1 G2].
        exists k. rewrite G1. split; [ exact E2 | ]. intros n Hn. rewrite (G2 n Hn). apply E3, Hn.
    + intros n Hn. etransitivity; [ exact (I2 n Hn) | ]. assert (Fr := step_frame (F t) dead p m n Tp (Hn t Lt)). rewrite Es in Fr. exact Fr.
    + exact (same_alloc_trans _ _ _ Al I3).
    + intros t' l w Hin. destruct (I4 t' l w Hin) as [H|H]; [ | right; exact H ].
      subst lg1. destruct p as [o | l' k | l' v k]; cbn [access] in H; [ left; exact H | | ].
      * destruct H as [H|H]; [ | left; exact H ]. assert (Q : t' = t /\ l = l' /\ w = false) by (repeat split; congruence).
        destruct Q as (-> & -> & ->). right. split; [ exact Lt | ]. destruct Tp as [[H1 _]|[H1 _]]; [ left; exact H1 | right; split; [ reflexivity | exact H1 ] ].
      * destruct H as [H|H]; [ | left; exact H ]. assert (Q : t' = t /\ l = l' /\ w = true) by (repeat split; congruence).
        destruct Q as (-> & -> & ->). right. split; [ exact Lt | ]. left. exact (proj1 Tp).
Qed.

(* from every state a schedule leads all threads to their ends *)
Lemma turns_end {A} t : forall n (st : state L V A) p, nth_error (threads st) t = Some p ->
  nth_error (threads (fold_left turn (repeat t n) st)) t = Some (fst (steps n (p, shared st))) /\
  (forall j, j <> t -> nth_error (threads (fold_left turn (repeat t n) st)) j = nth_error (threads st) j).
Proof.
  induction n as [|n IH]; intros st p Hp; [ split; [ exact Hp | reflexivity ] | ]. cbn [repeat fold_left steps].
  remember (turn st t) as st1 eqn:E1. unfold OmpModel.turn in E1. rewrite Hp in E1. cbv zeta in E1.
  destruct (step (p, shared st)) as [p1 m1]. cbn [fst snd] in E1.
  destruct (IH st1 p1) as [H1 H2]; [ rewrite E1; cbn [threads]; rewrite PRunProofs.set_nth_spec, Nat.eqb_refl, Hp; reflexivity | ].
  replace (shared st1) with m1 in H1 by (rewrite E1; reflexivity). split; [ exact H1 | ].
  intros j Hj. rewrite (H2 j Hj), E1. cbn [threads]. rewrite PRunProofs.set_nth_spec. apply Nat.eqb_neq in Hj. rewrite Hj. reflexivity.
Qed.
Lemma all_end {A} : forall n (st : state L V A), exists sched, forall t p, t < n ->
  nth_error (threads (fold_left turn sched st)) t = Some p -> exists o, p = Done o.
Proof.
  induction n as [|n IH]; intros st; [ exists []; intros; lia | ].
  destruct (IH st) as [sched H]. set (st1 := fold_left turn sched st) in *.
  destruct (nth_error (threads st1) n) as [p|] eqn:Ep.
  - destruct (steps_end p (shared st1)) as [k Hk]. exists (sched ++ repeat n k). intros t q Ht Hq. rewrite fold_left_app in Hq. fold st1 in Hq.
    destruct (turns_end n k st1 p Ep) as [E1 E2]. destruct (Nat.eq_dec t n) as [->|Hn].
    + rewrite E1, Hk in Hq. eexists. injection Hq as <-. reflexivity.
    + rewrite (E2 t Hn) in Hq. apply (H t q); [ lia | exact Hq ].
  - exists sched. fold st1. intros t q Ht Hq. destruct (Nat.eq_dec t n) as [->|Hn]; [ congruence | apply (H t q); [ lia | exact Hq ] ].
Qed.

(* ---------- loops whose iterations are independent ---------- *)
Section Loop.
Context {S X : Type}.
Variable body : nat -> S -> X -> acc S.
Variable W : X -> L -> Prop.                (* what an iteration uses *)
Variable own : nat -> L -> Prop.            (* what a thread uses in all its iterations *)
Variable dead : L -> Prop.
Variable Q : S -> Prop.                     (* private states *)
Variable all : list X.
Variable m0 : memory.
Hypothesis all_nd : NoDup all.
Hypothesis W_disj : forall i j l, In i all -> In j all -> i <> j -> W i l -> ~ W j l.
Hypothesis own_disj : forall t t' l, t <> t' -> own t l -> ~ own t' l.
Hypothesis own_W : forall t i l, In i all -> own t l -> ~ W i l.
Hypothesis body_touch : forall t s i, In i all -> touches (fun l => W i l \/ own t l) dead (body t s i).
(* thread 0 alone, from the start *)
Variable s0 : S.
Hypothesis Q0 : Q s0.
(* the private state and the thread number do not influence what an iteration does to its part of the memory *)
Variable ok : nat -> Prop.                  (* usable thread numbers *)
Hypothesis body_same : forall t t' s s' i m m' r m1, In i all -> ok t -> ok t' -> Q s -> Q s' -> agree (W i) m m' -> same_alloc m m0 -> same_alloc m' m0 ->
  run (body t s i) m = (Ok r, m1) ->
  exists r' m1', run (body t' s' i) m' = (Ok r', m1') /\ Q r' /\ agree (W i) m1 m1'.
Hypothesis ok0 : ok 0.
Hypothesis Wdec : forall l, (exists i, In i all /\ W i l) \/ (forall i, In i all -> ~ W i l).

Definition part (li : list X) (t : nat) (l : L) : Prop := (exists i, In i li /\ W i l) \/ own t l.
Lemma fold_touch t li s : incl li all -> touches (part li t) dead (afold (body t) li s).
Proof.
  intros Hin. apply touches_fold. intros s' x Hx. apply touches_mono with (F := fun l => W x l \/ own t l); [ | apply body_touch, Hin, Hx ].
  intros l [H|H]; [ left; exists x; split; assumption | right; exact H ].
Qed.

(* what an iteration leaves behind, started from the initial memory *)
Definition left_by (i : X) : memory := snd (run (body 0 s0 i) m0).
Definition works (i : X) : Prop := exists r, fst (run (body 0 s0 i) m0) = Ok r.

Lemma solo_fold t : ok t -> forall li s m, NoDup li -> incl li all -> (forall i, In i li -> works i) -> Q s ->
  same_alloc m m0 -> (forall i, In i li -> agree (W i) m m0) ->
  exists r m', run (afold (body t) li s) m = (Ok r, m') /\ Q r /\ (forall i, In i li -> agree (W i) m' (left_by i)).
Proof.
  intros Hok. induction li as [|i li IH]; intros s m Hnd Hin Hw HQ Hal Hag.
  - exists s, m. split; [ reflexivity | ]. split; [ exact HQ | intros i [] ].
  - inversion Hnd as [|? ? Hni Hnd']; subst. assert (Hi : In i all) by (apply Hin; left; reflexivity).
    destruct (Hw i (or_introl eq_refl)) as [r0 Hr0]. destruct (run (body 0 s0 i) m0) as [o m1] eqn:E0. cbn [fst] in Hr0. subst o.
    destruct (body_same 0 t s0 s i m0 m r0 m1 Hi ok0 Hok Q0 HQ (agree_sym _ _ _ (Hag i (or_introl eq_refl))) (same_alloc_refl _) Hal E0) as (r1 & m2 & E1 & HQ1 & Ag1).
    cbn [afold]. rewrite (run_bind_ok _ _ _ _ _ E1).
    assert (A2 : same_alloc m m2) by (replace m2 with (snd (run (body t s i) m)) by (rewrite E1; reflexivity); apply run_alloc).
    destruct (IH r1 m2) as (r & m' & E & HQr & Ag).
    + exact Hnd'.
    + intros x Hx. apply Hin. right; exact Hx.
    + intros x Hx. apply Hw. right; exact Hx.
    + exact HQ1.
    + exact (same_alloc_trans _ _ _ (same_alloc_sym _ _ A2) Hal).
    + intros j Hj l Hl. rewrite <- (Hag j (or_intror Hj) l Hl).
      replace m2 with (snd (run (body t s i) m)) by (rewrite E1; reflexivity).
      apply run_frame with (F := fun l => W i l \/ own t l) (dead := dead); [ apply body_touch, Hi | ].
      assert (Hja : In j all) by (apply Hin; right; exact Hj). intros [H|H].
      * apply (W_disj j i l Hja Hi); [ intros ->; contradiction | exact Hl | exact H ].
      * exact (own_W t j l Hja H Hl).
    + exists r, m'. split; [ exact E | ]. split; [ exact HQr | ]. intros j [<-|Hj]; [ | apply Ag, Hj ].
      intros l Hl. unfold left_by. rewrite E0. cbn [snd]. rewrite (Ag1 l Hl).
      replace m' with (snd (run (afold (body t) li r1) m2)) by (rewrite E; reflexivity).
      apply run_frame with (F := part li t) (dead := dead).
      * apply fold_touch. intros x Hx. apply Hin. right; exact Hx.
      * intros [(j & Hj & Hjl)|H].
        -- apply (W_disj i j l Hi); [ apply Hin; right; exact Hj | intros ->; contradiction | exact Hl | exact Hjl ].
        -- exact (own_W t i l Hi H Hl).
Qed.

(* if thread 0 can do the whole loop, every iteration works *)
Lemma seq_works : forall li s m r m', NoDup li -> incl li all -> Q s -> same_alloc m m0 -> (forall i, In i li -> agree (W i) m m0) ->
  run (afold (body 0) li s) m = (Ok r, m') -> forall i, In i li -> works i.
Proof.
  induction li as [|i li IH]; intros s m r m' Hnd Hin HQ Hal Hag E; [ intros i [] | ].
  inversion Hnd as [|? ? Hni Hnd']; subst. assert (Hi : In i all) by (apply Hin; left; reflexivity).
  cbn [afold] in E. rewrite run_bind in E. destruct (run (body 0 s i) m) as [[r1| | |] m1] eqn:E1; try discriminate.
  assert (Wi : works i).
  { destruct (body_same 0 0 s s0 i m m0 r1 m1 Hi ok0 ok0 HQ Q0 (Hag i (or_introl eq_refl)) Hal (same_alloc_refl _) E1) as (r2 & m2 & E2 & _). exists r2. rewrite E2. reflexivity. }
  assert (HQ1 : Q r1).
  { destruct (body_same 0 0 s s i m m r1 m1 Hi ok0 ok0 HQ HQ (fun l _ => eq_refl) Hal Hal E1) as (r2 & m2 & E2 & Q2 & _). rewrite E2 in E1. congruence. }
  intros j [<-|Hj]; [ exact Wi | ].
  apply (IH r1 m1 r m' Hnd' (fun x Hx => Hin x (or_intror Hx)) HQ1); try assumption.
  - assert (A := run_alloc (body 0 s i) m). rewrite E1 in A. exact (same_alloc_trans _ _ _ (same_alloc_sym _ _ A) Hal).
  - intros j' Hj' l Hl. rewrite <- (Hag j' (or_intror Hj') l Hl).
    replace m1 with (snd (run (body 0 s i) m)) by (rewrite E1; reflexivity).
    apply run_frame with (F := fun l => W i l \/ own 0 l) (dead := dead); [ apply body_touch, Hi | ].
    assert (Hja : In j' all) by (apply Hin; right; exact Hj'). intros [H|H].
    + apply (W_disj j' i l Hja Hi); [ intros ->; contradiction | exact Hl | exact H ].
    + exact (own_W 0 j' l Hja H Hl).
Qed.

Section Dist.
Variable assign : list (list X).
Hypothesis Hperm : Permutation (concat assign) all.
Variable init : nat -> S.
Hypothesis Qinit : forall t, Q (init t).
Hypothesis all_ok : forall t, t < length assign -> ok t.
Lemma assign_incl t li : nth_error assign t = Some li -> incl li all.
Proof. intros H i Hi. apply (Permutation_in _ Hperm). apply in_concat. exists li. split; [ exact (nth_error_In _ _ H) | exact Hi ]. Qed.
Lemma assign_nodup : NoDup (concat assign).
Proof. exact (Permutation_NoDup (Permutation_sym Hperm) all_nd). Qed.
Lemma concat_nodup {Y} (ll : list (list Y)) : NoDup (concat ll) -> (forall t li, nth_error ll t = Some li -> NoDup li) /\
  (forall t t' li li' x, t <> t' -> nth_error ll t = Some li -> nth_error ll t' = Some li' -> In x li -> ~ In x li').
Proof.
  induction ll as [|l ll IH]; cbn [concat]; intros Hnd.
  - split; [ intros [|t] li H; discriminate | intros [|t] t' li li' x Hn H; discriminate ].
  - assert (H1 := NoDup_app_l _ _ Hnd). assert (H2 := NoDup_app_r _ _ Hnd). destruct (IH H2) as [I1 I2].
    assert (H3 : forall x, In x l -> ~ In x (concat ll)).
    { clear -Hnd. induction l as [|a l IHl]; intros x [].
      - subst a. cbn in Hnd. inversion Hnd as [|? ? Hn ?]; subst. intros Hx. apply Hn. apply in_or_app. right; exact Hx.
      - cbn in Hnd. inversion Hnd; subst. apply IHl; assumption. }
    split.
    + intros [|t] li H; cbn in H; [ injection H as <-; exact H1 | exact (I1 t li H) ].
    + intros [|t] [|t'] li li' x Hn G G' Hx Hx'; cbn in G, G'; [ contradiction | | | ].
      * injection G as <-. apply (H3 x Hx). apply in_concat. exists li'. split; [ exact (nth_error_In _ _ G') | exact Hx' ].
      * injection G' as <-. apply (H3 x Hx'). apply in_concat. exists li. split; [ exact (nth_error_In _ _ G) | exact Hx ].
      * apply (I2 t t' li li' x); try assumption. congruence.
Qed.
Lemma omp_nth t : nth_error (omp_for body init assign) t = option_map (fun li => afold (body t) li (init t)) (nth_error assign t).
Proof.
  unfold omp_for. rewrite nth_error_map. enough (H : forall (ll : list (list X)) k, nth_error (combine (seq k (length ll)) ll) t = option_map (fun li => (k + t, li)) (nth_error ll t)).
  { rewrite (H assign 0). destruct (nth_error assign t); reflexivity. }
  clear. intros ll. revert t. induction ll as [|l ll IH]; intros [|t] k; cbn; try reflexivity; [ rewrite Nat.add_0_r; reflexivity | ].
  rewrite IH. destruct (nth_error ll t); cbn; [ do 3 f_equal; lia | reflexivity ].
Qed.
Lemma omp_length : length (omp_for body init assign) = length assign.
Proof. unfold omp_for. rewrite map_length, combine_length, seq_length. apply Nat.min_id. Qed.

Definition foot (t : nat) : L -> Prop := part (nth t assign []) t.
Lemma nth_incl t : incl (nth t assign []) all.
Proof.
  destruct (nth_error assign t) as [li|] eqn:E; [ rewrite (nth_error_nth _ _ _ E); exact (assign_incl t li E) | ].
  apply nth_error_None in E. rewrite nth_overflow by exact E. intros x [].
Qed.
Lemma foot_disj i j l : i < length assign -> j < length assign -> i <> j -> foot i l -> ~ foot j l.
Proof.
  intros Hi Hj Hn [(a & Ha & Wa)|Ho] [(b & Hb & Wb)|Ho'].
  - destruct (concat_nodup assign assign_nodup) as [_ D].
    apply (W_disj a b l (nth_incl i a Ha) (nth_incl j b Hb)); [ | exact Wa | exact Wb ]. intros ->.
    exact (D i j _ _ b Hn (nth_error_nth' assign [] Hi) (nth_error_nth' assign [] Hj) Ha Hb).
  - exact (own_W j a l (nth_incl i a Ha) Ho' Wa).
  - exact (own_W i b l (nth_incl j b Hb) Ho Wb).
  - exact (own_disj i j l Hn Ho Ho').
Qed.
Lemma omp_touch t p : nth_error (omp_for body init assign) t = Some p -> touches (foot t) dead p.
Proof.
  rewrite omp_nth. destruct (nth_error assign t) as [li|] eqn:E; cbn; [ | discriminate ]. intros H. injection H as <-.
  unfold foot. rewrite (nth_error_nth _ _ _ E). apply fold_touch. exact (assign_incl t li E).
Qed.

(* every execution of the region *)
Theorem omp_for_all sched : (forall i, In i all -> works i) -> let st := parallel leqb (omp_for body init assign) m0 sched in
  ~ failed st /\
  (forall l, race_on (elog st) l -> dead l) /\
  (finished st -> (forall i l, In i all -> W i l -> shared st l = left_by i l) /\
                  (forall l, (forall i, In i all -> ~ W i l) -> (forall t, t < length assign -> ~ own t l) -> shared st l = m0 l)) /\
  (exists more, finished (parallel leqb (omp_for body init assign) m0 (sched ++ more))).
Proof.
  intros all_work. cbv zeta.
  assert (Solo : forall t p, nth_error (omp_for body init assign) t = Some p -> exists r, fst (run p m0) = Ok r /\
     forall i, In i (nth t assign []) -> agree (W i) (snd (run p m0)) (left_by i)).
  { intros t p Hp. rewrite omp_nth in Hp. destruct (nth_error assign t) as [li|] eqn:E; cbn in Hp; [ | discriminate ].
    assert (Lt : t < length assign) by (apply nth_error_Some; congruence).
    destruct (solo_fold t (all_ok t Lt) li (init t) m0) as (r & m' & E1 & _ & Ag).
    - exact (proj1 (concat_nodup assign assign_nodup) t li E).
    - exact (assign_incl t li E).
    - intros i Hi. apply all_work, (assign_incl t li E i Hi).
    - apply Qinit.
    - apply same_alloc_refl.
    - intros i _ l _. reflexivity.
    - injection Hp as <-. rewrite E1. rewrite (nth_error_nth _ _ _ E). exists r. split; [ reflexivity | exact Ag ]. }
  assert (Main : forall sc, let st := parallel leqb (omp_for body init assign) m0 sc in
     (forall t o, nth_error (threads st) t = Some (Done o) -> exists r, o = Ok r)).
  { intros sc. cbv zeta. intros t o Ho. unfold parallel in Ho.
    destruct (nth_error (omp_for body init assign) t) as [p|] eqn:Ep.
    - destruct (interleave_solo foot dead sc (omp_for body init assign) m0 [] omp_touch) as (I1 & _).
      { rewrite omp_length. exact foot_disj. }
      destruct (I1 t p Ep) as (k & G1 & _). rewrite G1 in Ho. injection Ho as Ho. assert (R := run_steps k p m0). rewrite Ho in R. cbn in R.
      destruct (Solo t p Ep) as (r & Hr & _). rewrite <- R in Hr. cbn in Hr. exists r. exact Hr.
    - exfalso. apply nth_error_None in Ep.
      assert (nth_error (threads (fold_left turn sc (mkst (omp_for body init assign) m0 []))) t = None) by (apply nth_error_None; rewrite parallel_length; exact Ep).
      congruence. }
  destruct (interleave_solo foot dead sched (omp_for body init assign) m0 [] omp_touch) as (I1 & I2 & _ & I4).
  { rewrite omp_length. exact foot_disj. }
  rewrite omp_length in I2, I4. split; [ | split; [ | split ] ].
  - intros (t & o & Ho & Hbad). destruct (Main sched t o Ho) as [r ->]. exact (Hbad r eq_refl).
  - intros l (t & t' & w & w' & Hne & G & G' & Hw).
    destruct (I4 t l w G) as [[]|(Lt & H)]. destruct (I4 t' l w' G') as [[]|(Lt' & H')].
    destruct H as [H|[-> H]]; [ | exact H ]. destruct H' as [H'|[-> H']]; [ | exact H' ].
    exfalso. exact (foot_disj t t' l Lt Lt' Hne H H').
  - intros Fin. split.
    + intros i l Hi Hl. apply (Permutation_in _ (Permutation_sym Hperm)) in Hi. apply in_concat in Hi. destruct Hi as (li & Hli & Hi).
      apply In_nth_error in Hli. destruct Hli as [t Ht].
      assert (Ep : nth_error (omp_for body init assign) t = Some (afold (body t) li (init t))) by (rewrite omp_nth, Ht; reflexivity).
      destruct (I1 t _ Ep) as (k & G1 & G2). destruct (Fin t _ G1) as [a Ha].
      assert (R := run_steps k (afold (body t) li (init t)) m0). rewrite Ha in R. cbn in R.
      destruct (Solo t _ Ep) as (r & Hr & Ag). rewrite <- R in Ag. cbn [snd] in Ag.
      assert (Li : nth t assign [] = li) by (apply nth_error_nth; exact Ht). rewrite Li in Ag.
      rewrite <- (Ag i Hi l Hl). symmetry. apply G2. left. exists i. rewrite Li. split; assumption.
    + intros l H1 H2. apply I2. intros t Lt [(i & Hi & Hl)|Ho]; [ | exact (H2 t Lt Ho) ].
      exact (H1 i (nth_incl t i Hi) Hl).
  - destruct (all_end (length assign) (parallel leqb (omp_for body init assign) m0 sched)) as [more Hm].
    exists more. intros t p Hp. unfold parallel in Hp |- *. rewrite fold_left_app in Hp.
    assert (Lt : t < length assign).
    { rewrite <- omp_length. assert (H : nth_error (threads (fold_left turn more (fold_left turn sched (mkst (omp_for body init assign) m0 [])))) t <> None) by congruence.
      apply nth_error_Some in H. rewrite !parallel_length in H. exact H. }
    destruct (Hm t p Lt Hp) as [o ->]. destruct (Main (sched ++ more) t o) as [r ->]; [ unfold parallel; rewrite fold_left_app; exact Hp | ].
    exists r. reflexivity.
Qed.
(* ... compared with the loop done by one thread *)
Theorem omp_for_seq r mseq sched : run (afold (body 0) all s0) m0 = (Ok r, mseq) ->
  let st := parallel leqb (omp_for body init assign) m0 sched in
  ~ failed st /\
  (forall l, race_on (elog st) l -> dead l) /\
  (finished st -> forall l, (forall t, ~ own t l) -> shared st l = mseq l) /\
  (exists more, finished (parallel leqb (omp_for body init assign) m0 (sched ++ more))).
Proof.
  intros E. cbv zeta.
  assert (Wk : forall i, In i all -> works i).
  { apply (seq_works all s0 m0 r mseq all_nd (incl_refl _) Q0 (same_alloc_refl _)); [ intros i _ l _; reflexivity | exact E ]. }
  destruct (solo_fold 0 ok0 all s0 m0 all_nd (incl_refl _) Wk Q0 (same_alloc_refl _) (fun i _ l _ => eq_refl)) as (r' & m' & E' & _ & Ag).
  assert (m' = mseq) by congruence. subst m'.
  destruct (omp_for_all sched Wk) as (H1 & H2 & H3 & H4). split; [ exact H1 | ]. split; [ exact H2 | ]. split; [ | exact H4 ].
  intros Fin l Hown. destruct (H3 Fin) as [G1 G2]. clear H3.
  destruct (Wdec l) as [(i & Hi & Hl)|Hn].
  - rewrite (G1 i l Hi Hl). symmetry. apply Ag; assumption.
  - rewrite (G2 l Hn (fun t _ => Hown t)). symmetry.
    replace mseq with (snd (run (afold (body 0) all s0) m0)) by (rewrite E; reflexivity).
    apply run_frame with (F := part all 0) (dead := dead); [ apply fold_touch, incl_refl | ].
    intros [(i & Hi & Hl)|H]; [ exact (Hn i Hi Hl) | exact (Hown 0 H) ].
Qed.
End Dist.
End Loop.

(* ---------- memory as arrays: a program that acts on an array like a function on lists ---------- *)
Section Sim.
Context {Sg : Type}.
Variable view : memory -> Sg -> Prop.
Definition sim {A} (Q : A -> Prop) (p : acc A) (g : Sg -> outcome Sg) : Prop :=
  forall m a a', view m a -> g a = Ok a' -> exists r m', run p m = (Ok r, m') /\ Q r /\ view m' a'.
Lemma sim_fold {St X} (Q : St -> Prop) (f : St -> X -> acc St) (g : Sg -> X -> outcome Sg) l :
  (forall s x, In x l -> Q s -> sim Q (f s x) (fun a => g a x)) -> forall s, Q s -> sim Q (afold f l s) (ofold g l).
Proof.
  induction l as [|x l IH]; intros Hf s HQ m a a' Hv Hg; cbn [ofold afold] in *.
  - injection Hg as <-. exists s, m. split; [ reflexivity | split; assumption ].
  - destruct (g a x) as [a1| | |] eqn:E; try discriminate.
    destruct (Hf s x (or_introl eq_refl) HQ m a a1 Hv E) as (r & m1 & E1 & Q1 & V1).
    rewrite (run_bind_ok _ _ _ _ _ E1). apply (IH (fun s x Hx => Hf s x (or_intror Hx)) r Q1 m1 a1 a' V1 Hg).
Qed.
Lemma sim_done {A B} (Q : B -> Prop) (o : outcome A) (k : A -> acc B) (h : A -> Sg -> outcome Sg) :
  (forall x, o = Ok x -> sim Q (k x) (h x)) -> sim Q (abind (Done o) k) (fun a => do x <- o; h x a).
Proof. intros H m a a' Hv Hg. destruct o as [x| | |]; try discriminate. exact (H x eq_refl m a a' Hv Hg). Qed.
Lemma sim_ret {A} (Q : A -> Prop) x : Q x -> sim Q (ret x) (fun a => Ok a).
Proof. intros HQ m a a' Hv Hg. injection Hg as <-. exists x, m. split; [ reflexivity | split; assumption ]. Qed.
Lemma sim_bind {A B} (QA : A -> Prop) (Q : B -> Prop) (p : acc A) (k : A -> acc B) g h : sim QA p g -> (forall x, QA x -> sim Q (k x) h) ->
  sim Q (abind p k) (fun a => do a' <- g a; h a').
Proof.
  intros Hp Hk m a a' Hv Hg. cbn in Hg. destruct (g a) as [a1| | |] eqn:E; try discriminate.
  destruct (Hp m a a1 Hv E) as (r & m1 & E1 & Q1 & V1). rewrite (run_bind_ok _ _ _ _ _ E1). exact (Hk r Q1 m1 a1 a' V1 Hg).
Qed.
Lemma sim_ext {A} (Q : A -> Prop) (p : acc A) g h : (forall a, g a = h a) -> sim Q p g -> sim Q p h.
Proof. intros E H m a a' Hv Hg. apply (H m a a' Hv). rewrite E. exact Hg. Qed.
End Sim.
End Gen.
