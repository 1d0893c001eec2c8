(* Threads with separate memory: every execution of the region ends like the threads run one after the other. *)
From Coq Require Import Permutation Classical.
From Verif Require Import Common ArrayLib OmpModel OmpProofs.
From Verif Require PRunModel PRunProofs.
Open Scope nat_scope.
Open Scope list_scope.

Section Serial.
Context {L V : Type}.
Variable leqb : L -> L -> bool.
Hypothesis leqb_spec : forall a b, reflect (a = b) (leqb a b).
Context {A : Type}.
Notation memory := (memory L V).
Variable F : nat -> L -> Prop.
Variable dead : L -> Prop.

Definition one_after_other (ps : list (acc L V A)) (a : A) : acc L V A := afold (fun _ p => p) ps a.

Lemma serial : forall ps off m r mseq a,
  (forall i p, nth_error ps i = Some p -> touches (F (off + i)) dead p) ->
  (forall i j l, i < off + length ps -> j < off + length ps -> i <> j -> F i l -> ~ F j l) ->
  run leqb (one_after_other ps a) m = (Ok r, mseq) ->
  (forall i p, nth_error ps i = Some p -> (exists x, fst (run leqb p m) = Ok x) /\ agree (F (off + i)) (snd (run leqb p m)) mseq) /\
  (forall l, (forall i, i < length ps -> ~ F (off + i) l) -> mseq l = m l).
Proof.
  induction ps as [|p ps IH]; intros off m r mseq a Ht Hd E.
  - cbn in E. assert (mseq = m) by congruence. subst mseq. split; [ intros [|i] p H; discriminate | reflexivity ].
  - unfold one_after_other in E. cbn [afold] in E. rewrite run_bind in E. destruct (run leqb p m) as [o m1] eqn:Ep.
    destruct o as [a1| | |]; cbn [fst snd] in E; try discriminate.
    assert (Tp : touches (F off) dead p) by (rewrite <- (Nat.add_0_r off); apply Ht; reflexivity).
    assert (Al := run_alloc leqb leqb_spec p m). rewrite Ep in Al. cbn [snd] in Al.
    destruct (IH (S off) m1 r mseq a1) as [I1 I2].
    { intros i q Hq. replace (S off + i) with (off + S i) by lia. apply Ht. exact Hq. }
    { intros i j l Hi Hj. apply Hd; cbn [length]; lia. }
    { exact E. }
    split.
    + intros [|i] q Hq.
      * cbn in Hq. injection Hq as <-. rewrite Ep. split; [ exists a1; reflexivity | ]. rewrite Nat.add_0_r. intros l Hl. cbn [snd]. symmetry. apply I2.
        intros i Hi. apply (Hd off (S off + i) l); cbn [length]; [ lia | lia | lia | exact Hl ].
      * cbn in Hq. destruct (I1 i q Hq) as [(x & Hx) Ag]. replace (off + S i) with (S off + i) by lia.
        assert (Li : i < length ps) by (apply nth_error_Some; congruence).
        assert (Tq : touches (F (S off + i)) dead q) by (replace (S off + i) with (off + S i) by lia; apply Ht; exact Hq).
        assert (A0 : agree (F (S off + i)) m1 m).
        { intros l Hl. assert (Fr := run_frame leqb leqb_spec (F off) dead p m l Tp). rewrite Ep in Fr. cbn [snd] in Fr. apply Fr.
          apply (Hd (S off + i) off l); cbn [length]; [ lia | lia | lia | exact Hl ]. }
        destruct (run_agree leqb leqb_spec (F (S off + i)) dead q m1 m Tq A0 (same_alloc_sym _ _ Al)) as [G1 G2].
        rewrite <- G1. split; [ exists x; exact Hx | ]. intros l Hl. rewrite <- (G2 l Hl). apply Ag, Hl.
    + intros l Hl. assert (Fr := run_frame leqb leqb_spec (F off) dead p m l Tp). rewrite Ep in Fr. cbn [snd] in Fr. rewrite <- Fr.
      * apply I2. intros i Hi. replace (S off + i) with (off + S i) by lia. apply Hl. cbn [length]. lia.
      * rewrite <- (Nat.add_0_r off). apply Hl. cbn [length]. lia.
Qed.

Theorem serial_region ps m a r mseq sched :
  (forall i p, nth_error ps i = Some p -> touches (F i) dead p) ->
  (forall i j l, i < length ps -> j < length ps -> i <> j -> F i l -> ~ F j l) ->
  run leqb (one_after_other ps a) m = (Ok r, mseq) ->
  let st := parallel leqb ps m sched in
  ~ failed st /\ (forall l, race_on (elog st) l -> dead l) /\
  (finished st -> forall l, shared st l = mseq l) /\
  (exists more, finished (parallel leqb ps m (sched ++ more))).
Proof.
  intros Ht Hd E. cbv zeta. destruct (serial ps 0 m r mseq a Ht Hd E) as [S1 S2]. cbn [Nat.add] in S1, S2.
  assert (Main : forall sc t o, nth_error (threads (parallel leqb ps m sc)) t = Some (Done o) -> exists x, o = Ok x).
  { intros sc t o Ho. unfold parallel in Ho. destruct (nth_error ps t) as [p|] eqn:Ep.
    - destruct (interleave_solo leqb leqb_spec F dead sc ps m [] Ht Hd) as (I1 & _). destruct (I1 t p Ep) as (k & G1 & _).
      rewrite G1 in Ho. injection Ho as Ho. assert (R := run_steps leqb k p m). rewrite Ho in R. cbn in R.
      destruct (S1 t p Ep) as [(x & Hx) _]. rewrite <- R in Hx. exists x. exact Hx.
    - apply nth_error_None in Ep. assert (nth_error (threads (fold_left (turn leqb) sc (mkst ps m []))) t = None) by (apply nth_error_None; rewrite parallel_length; exact Ep).
      congruence. }
  destruct (interleave_solo leqb leqb_spec F dead sched ps m [] Ht Hd) as (I1 & I2 & _ & I4).
  split; [ | split; [ | split ] ].
  - intros (t & o & Ho & Hbad). destruct (Main sched t o Ho) as [x ->]. exact (Hbad x eq_refl).
  - intros l (t & t' & w & w' & Hne & G & G' & Hw).
    destruct (I4 t l w G) as [[]|(Lt & H)]. destruct (I4 t' l w' G') as [[]|(Lt' & H')].
    destruct H as [H|[-> H]]; [ | exact H ]. destruct H' as [H'|[-> H']]; [ | exact H' ].
    exfalso. exact (Hd t t' l Lt Lt' Hne H H').
  - intros Fin l. destruct (classic (exists i, i < length ps /\ F i l)) as [(i & Hi & Hl)|Hn].
    + destruct (nth_error ps i) as [p|] eqn:Ep; [ | apply nth_error_None in Ep; lia ].
      destruct (I1 i p Ep) as (k & G1 & G2). destruct (Fin i _ G1) as [x Hx].
      assert (R := run_steps leqb k p m). rewrite Hx in R. cbn in R. destruct (S1 i p Ep) as [_ Ag]. rewrite <- R in Ag. cbn [snd] in Ag.
      rewrite <- (Ag l Hl). symmetry. apply G2, Hl.
    + etransitivity; [ apply I2 | symmetry; apply S2 ]; intros i Hi Hl; apply Hn; exists i; split; assumption.
  - destruct (all_end leqb (length ps) (parallel leqb ps m sched)) as [more Hm].
    exists more. intros t p Hp. unfold parallel in Hp. rewrite fold_left_app in Hp.
    assert (Lt : t < length ps).
    { assert (H : nth_error (threads (fold_left (turn leqb) more (fold_left (turn leqb) sched (mkst ps m [])))) t <> None) by congruence.
      apply nth_error_Some in H. rewrite !parallel_length in H. exact H. }
    destruct (Hm t p Lt Hp) as [o ->]. destruct (Main (sched ++ more) t o) as [x ->]; [ unfold parallel; rewrite fold_left_app; exact Hp | ].
    exists x. reflexivity.
Qed.
End Serial.

(* accesses that no successful run of a thread can avoid *)
Section Must.
Context {L V : Type}.
Fixpoint must {A} (e : L * bool) (p : acc L V A) : Prop :=
  match p with
  | Done (Ok _) => False
  | Done _ => True
  | Rd l k => e = (l, false) \/ forall v, must e (k v)
  | Wr l _ k => e = (l, true) \/ must e k
  end.
Lemma must_bind_l {A B} e (p : acc L V A) (g : A -> acc L V B) : must e p -> must e (abind p g).
Proof.
  induction p as [[a| | |]|l k IH|l v k IH]; cbn; try tauto.
  - intros [H|H]; [ left; exact H | right; intros v; apply IH, H ].
Qed.
Lemma must_bind_r {A B} e (p : acc L V A) (g : A -> acc L V B) : (forall a, must e (g a)) -> must e (abind p g).
Proof.
  intros H. induction p as [[a| | |]|l k IH|l v k IH]; cbn; [ apply H | exact I | exact I | exact I | right; exact IH | right; exact IH ].
Qed.
Lemma must_fold {S X} e (f : S -> X -> acc L V S) x : forall l, In x l -> (forall s, must e (f s x)) -> forall s, must e (afold f l s).
Proof.
  induction l as [|y l IH]; intros H Hf s; [ destruct H | ]. cbn [afold]. destruct H as [->|H].
  - apply must_bind_l, Hf.
  - apply must_bind_r. intros s'. apply IH; assumption.
Qed.
Variable leqb : L -> L -> bool.
Lemma must_logged {A} e t : forall sched (st : state L V A) p, nth_error (threads st) t = Some p -> must e p \/ In (t, e) (elog st) ->
  finished (fold_left (turn leqb) sched st) -> In (t, e) (elog (fold_left (turn leqb) sched st)).
Proof.
  induction sched as [|u sched IH]; intros st p Hp H Fin.
  - cbn in *. destruct H as [H|H]; [ | exact H ]. destruct (Fin t p Hp) as [a ->]. destruct H.
  - cbn [fold_left] in *. destruct (nth_error (threads st) u) as [q|] eqn:Eq.
    2:{ assert (E : turn leqb st u = st) by (unfold turn; rewrite Eq; reflexivity). rewrite E in *. exact (IH st p Hp H Fin). }
    assert (Hlog : forall e', In e' (elog st) -> In e' (elog (turn leqb st u))).
    { intros e' He. unfold turn. rewrite Eq. cbn [elog]. destruct (access q); [ right | ]; exact He. }
    destruct (Nat.eq_dec u t) as [->|Hn].
    + assert (q = p) by congruence. subst q.
      apply (IH _ (fst (step leqb (p, shared st)))).
      * unfold turn. rewrite Hp. cbn [threads]. rewrite PRunProofs.set_nth_spec, Nat.eqb_refl, Hp. reflexivity.
      * destruct H as [H|H]; [ | right; apply Hlog, H ].
        destruct p as [o|l k|l v k].
        -- left. exact H.
        -- cbn in H. destruct H as [->|H]; [ right; unfold turn; rewrite Hp; cbn; left; reflexivity | ].
           left. cbn. destruct (shared st l); cbn; [ apply H | exact I ].
        -- cbn in H. destruct H as [->|H]; [ right; unfold turn; rewrite Hp; cbn; left; reflexivity | ].
           left. cbn. destruct (shared st l); cbn; [ exact H | exact I ].
      * exact Fin.
    + apply (IH _ p).
      * unfold turn. rewrite Eq. cbn [threads]. rewrite PRunProofs.set_nth_spec. destruct (Nat.eqb_spec t u) as [->|]; [ contradiction | exact Hp ].
      * destruct H as [H|H]; [ left; exact H | right; apply Hlog, H ].
      * exact Fin.
Qed.
End Must.
