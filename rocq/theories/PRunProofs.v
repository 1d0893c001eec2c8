From Coq Require Import String FunctionalExtensionality.
From Verif Require Import Common ArrayLib PWModel NameModel NameProofs PioModel PioSpec PioProofs PRunModel.
Open Scope nat_scope.
Open Scope list_scope.

Section Gen.
Variable V : Type.
Variable veqb : V -> V -> bool.
Notation fsys := (fsys V).
Notation proc := (proc V).
Notation run := (run V).
Notation step := (step V).
Notation bindp := (bindp V).

Fixpoint steps {A} (n : nat) (c : proc A * fsys) : proc A * fsys := match n with O => c | S m => steps m (step c) end.
Lemma steps_ret {A} n (o : outcome A) fs : steps n (Ret o, fs) = (Ret o, fs).
Proof. induction n as [|n IH]; [ reflexivity | exact IH ]. Qed.
Lemma run_step {A} (p : proc A) fs : run (fst (step (p, fs))) (snd (step (p, fs))) = run p fs.
Proof. destruct p; reflexivity. Qed.
Lemma run_steps {A} n : forall (p : proc A) fs, run (fst (steps n (p, fs))) (snd (steps n (p, fs))) = run p fs.
Proof.
  induction n as [|n IH]; intros p fs; [ reflexivity | ]. cbn [steps]. destruct (step (p, fs)) as [p' fs'] eqn:E.
  rewrite IH. assert (H := run_step p fs). rewrite E in H. exact H.
Qed.
Lemma run_bind {A B} (p : proc A) (g : A -> proc B) : forall fs, run (bindp p g) fs =
  match run p fs with (Ok a, fs') => run (g a) fs' | (Err, fs') => (Err, fs') | (Exc, fs') => (Exc, fs') | (UB, fs') => (UB, fs') end.
Proof.
  induction p as [o | n f k IH | n k IH]; intros fs.
  - destruct o; reflexivity.
  - cbn [PRunModel.bindp PRunModel.run]. apply IH.
  - cbn [PRunModel.bindp PRunModel.run]. apply IH.
Qed.
Lemma run_bind_ok {A B} (p : proc A) (g : A -> proc B) fs a fs' : run p fs = (Ok a, fs') -> run (bindp p g) fs = run (g a) fs'.
Proof. intros H. rewrite run_bind, H. reflexivity. Qed.
(* a bind in progress: still in the first part, or the first part has finished *)
Lemma steps_bind {A B} (g : A -> proc B) n : forall (p : proc A) fs,
  (exists p' fs', steps n (p, fs) = (p', fs') /\ steps n (bindp p g, fs) = (bindp p' g, fs')) \/
  (exists a fs' m, run p fs = (Ok a, fs') /\ steps n (bindp p g, fs) = steps m (g a, fs')).
Proof.
  induction n as [|n IH]; intros p fs; [ left; exists p, fs; split; reflexivity | ].
  destruct p as [[a| | |] | nm f k | nm k].
  - right. exists a, fs, (S n). split; reflexivity.
  - left. do 2 eexists. rewrite steps_ret. split; [ reflexivity | ]. cbn [PRunModel.bindp]. apply steps_ret.
  - left. do 2 eexists. rewrite steps_ret. split; [ reflexivity | ]. cbn [PRunModel.bindp]. apply steps_ret.
  - left. do 2 eexists. rewrite steps_ret. split; [ reflexivity | ]. cbn [PRunModel.bindp]. apply steps_ret.
  - cbn [PRunModel.bindp steps PRunModel.run]. apply (IH k).
  - cbn [PRunModel.bindp steps PRunModel.run]. apply (IH (k (fs nm))).
Qed.

Lemma steps_bind_ok {A B} (g : A -> proc B) n (p : proc A) fs a fs1 : run p fs = (Ok a, fs1) ->
  (exists p' fs', steps n (p, fs) = (p', fs') /\ steps n (bindp p g, fs) = (bindp p' g, fs') /\ forall o, bindp p' g <> Ret o) \/
  (exists m, steps n (bindp p g, fs) = steps m (g a, fs1)).
Proof.
  intros R. destruct (steps_bind g n p fs) as [(p' & fs' & E1 & E2)|(a' & fs' & m & E1 & E2)].
  - destruct p' as [o'| |] eqn:Ep'.
    + assert (H := run_steps n p fs). rewrite E1, R in H. cbn in H. right. exists 0. rewrite E2.
      assert (Ho : o' = Ok a /\ fs' = fs1) by (split; congruence). destruct Ho as [-> ->]. reflexivity.
    + left. do 2 eexists. split; [ exact E1 | ]. split; [ exact E2 | discriminate ].
    + left. do 2 eexists. split; [ exact E1 | ]. split; [ exact E2 | discriminate ].
  - right. exists m. rewrite E2. assert (Ho : a' = a /\ fs' = fs1) by (split; congruence). destruct Ho as [-> ->]. reflexivity.
Qed.

(* the names a process can touch *)
Fixpoint touches {A} (S : string -> Prop) (p : proc A) : Prop :=
  match p with Ret _ => True | Write n _ k => S n /\ touches S k | Look n k => S n /\ forall o, touches S (k o) end.
Definition agree (S : string -> Prop) (fs fs' : fsys) : Prop := forall n, S n -> fs n = fs' n.
Lemma touches_mono {A} (S S' : string -> Prop) (p : proc A) : (forall n, S n -> S' n) -> touches S p -> touches S' p.
Proof. intros H. induction p as [o | n f k IH | n k IH]; cbn; [ trivial | | ]; intros [H1 H2]; split; auto. Qed.
Lemma touches_bind {A B} S (p : proc A) (g : A -> proc B) : touches S p -> (forall a, touches S (g a)) -> touches S (bindp p g).
Proof.
  intros Hp Hg. induction p as [o | n f k IH | n k IH]; cbn.
  - destruct o; cbn; auto.
  - destruct Hp; auto.
  - destruct Hp; auto.
Qed.
(* every result satisfies Q *)
Fixpoint posts {A} (Q : A -> Prop) (p : proc A) : Prop :=
  match p with Ret (Ok a) => Q a | Ret _ => True | Write _ _ k => posts Q k | Look _ k => forall o, posts Q (k o) end.
Lemma touches_bind' {A B} S Q (p : proc A) (g : A -> proc B) : touches S p -> posts Q p -> (forall a, Q a -> touches S (g a)) -> touches S (bindp p g).
Proof.
  intros Hp HQ Hg. induction p as [o | n f k IH | n k IH]; cbn in *.
  - destruct o; cbn; auto.
  - destruct Hp; auto.
  - destruct Hp; auto.
Qed.
Lemma posts_bind {A B} (Q : A -> Prop) (Q' : B -> Prop) (p : proc A) (g : A -> proc B) : posts Q p -> (forall a, Q a -> posts Q' (g a)) -> posts Q' (bindp p g).
Proof. intros HQ Hg. induction p as [o | n f k IH | n k IH]; cbn in *; auto. destruct o; cbn; auto. Qed.
Lemma posts_fold {St X} (Q : St -> Prop) (f : St -> X -> proc St) l : (forall s x, Q s -> posts Q (f s x)) -> forall s, Q s -> posts Q (foldp V f l s).
Proof. intros Hf. induction l as [|x l IH]; intros s Hs; [ exact Hs | ]. cbn. apply (posts_bind Q); [ apply Hf, Hs | exact IH ]. Qed.
Lemma touches_fold {St X} S (f : St -> X -> proc St) l : (forall s x, In x l -> touches S (f s x)) -> forall s, touches S (foldp V f l s).
Proof.
  induction l as [|x l IH]; intros Hf s; [ exact I | ]. cbn. apply touches_bind; [ apply Hf; left; reflexivity | ].
  intros s'. apply IH. intros s0 y Hy. apply Hf. right; exact Hy.
Qed.
Lemma touches_step {A} S (p : proc A) fs : touches S p -> touches S (fst (step (p, fs))).
Proof. destruct p; cbn; intros H; [ exact I | tauto | apply H ]. Qed.
Lemma step_agree {A} S (p : proc A) fs fs' : touches S p -> agree S fs fs' ->
  fst (step (p, fs)) = fst (step (p, fs')) /\ agree S (snd (step (p, fs))) (snd (step (p, fs'))).
Proof.
  destruct p as [o | n f k | n k]; cbn; intros Ht Ha.
  - split; [ reflexivity | exact Ha ].
  - split; [ reflexivity | ]. intros m Hm. unfold fs_write. destruct (String.eqb m n); [ reflexivity | apply Ha, Hm ].
  - split; [ rewrite (Ha n (proj1 Ht)); reflexivity | exact Ha ].
Qed.
Lemma steps_agree {A} S n : forall (p : proc A) fs fs', touches S p -> agree S fs fs' ->
  fst (steps n (p, fs)) = fst (steps n (p, fs')) /\ agree S (snd (steps n (p, fs))) (snd (steps n (p, fs'))).
Proof.
  induction n as [|n IH]; intros p fs fs' Ht Ha; [ split; [ reflexivity | exact Ha ] | ]. cbn [steps].
  destruct (step_agree S p fs fs' Ht Ha) as [E1 E2]. assert (Ht' := touches_step S p fs Ht).
  destruct (step (p, fs)) as [p1 f1], (step (p, fs')) as [p2 f2]. cbn [fst snd] in *. subst p2. apply IH; assumption.
Qed.
Lemma step_frame {A} S (p : proc A) fs n : touches S p -> ~ S n -> snd (step (p, fs)) n = fs n.
Proof.
  destruct p as [o | m f k | m k]; cbn; intros Ht Hn; try reflexivity. unfold fs_write.
  destruct (String.eqb_spec n m) as [->|]; [ tauto | reflexivity ].
Qed.
Lemma steps_frame {A} S k : forall (p : proc A) fs n, touches S p -> ~ S n -> snd (steps k (p, fs)) n = fs n.
Proof.
  induction k as [|k IH]; intros p fs n Ht Hn; [ reflexivity | ]. cbn [steps]. rewrite <- (step_frame S p fs n Ht Hn).
  assert (Ht' := touches_step S p fs Ht). destruct (step (p, fs)) as [p1 f1]. apply IH; assumption.
Qed.
Lemma run_frame {A} S (p : proc A) : forall fs n, touches S p -> ~ S n -> snd (run p fs) n = fs n.
Proof.
  induction p as [o | m f k IH | m k IH]; intros fs n Ht Hn; cbn in *.
  - reflexivity.
  - rewrite IH by tauto. unfold fs_write. destruct (String.eqb_spec n m) as [->|]; [ tauto | reflexivity ].
  - apply IH; [ apply Ht | exact Hn ].
Qed.

Lemma set_nth_spec {X} (l : list X) i x j : nth_error (set_nth l i x) j = if j =? i then match nth_error l i with Some _ => Some x | None => None end else nth_error l j.
Proof.
  revert i j. induction l as [|y l IH]; intros i j.
  - destruct i, j; cbn; try reflexivity. destruct (j =? i); reflexivity.
  - destruct i, j; cbn; try reflexivity. apply IH.
Qed.
Lemma set_nth_length {X} (l : list X) i x : length (set_nth l i x) = length l.
Proof. revert i. induction l as [|y l IH]; intros [|i]; cbn; auto. Qed.

(* simultaneous processes that touch disjoint sets of names: each behaves as if it were alone *)
Lemma interleave_solo {A} (S : nat -> string -> Prop) sched : forall (ps : list (proc A)) (fs : fsys),
  (forall i p, nth_error ps i = Some p -> touches (S i) p) ->
  (forall i j n, i < length ps -> j < length ps -> i <> j -> S i n -> ~ S j n) ->
  let st := interleave V sched (ps, fs) in
  length (fst st) = length ps /\
  (forall i p, nth_error ps i = Some p -> exists k, nth_error (fst st) i = Some (fst (steps k (p, fs))) /\ agree (S i) (snd (steps k (p, fs))) (snd st)) /\
  (forall n, (forall i, i < length ps -> ~ S i n) -> snd st n = fs n).
Proof.
  induction sched as [|t sched IH]; intros ps fs Ht Hd st.
  - split; [ reflexivity | ]. split; [ | reflexivity ]. intros i p Hp. exists 0. split; [ exact Hp | intros n _; reflexivity ].
  - subst st. change (interleave V (t :: sched) (ps, fs)) with (interleave V sched (turn V (ps, fs) t)).
    remember (turn V (ps, fs) t) as st1 eqn:E1. unfold turn in E1. cbn [fst snd] in E1.
    destruct (nth_error ps t) as [p|] eqn:Ep; [ | rewrite E1; exact (IH ps fs Ht Hd) ].
    assert (Tp := Ht t p Ep). assert (Lt : t < length ps) by (apply nth_error_Some; congruence).
    assert (Tp' := touches_step (S t) p fs Tp).
    destruct (step (p, fs)) as [p1 f1] eqn:Es. cbn [fst snd] in *. rewrite E1. cbv zeta.
    destruct (IH (set_nth ps t p1) f1) as (IL & I1 & I2).
    { intros i q Hq. rewrite set_nth_spec, Ep in Hq. destruct (Nat.eqb_spec i t) as [->|Hi]; [ injection Hq as <-; exact Tp' | apply (Ht i q Hq) ]. }
    { rewrite set_nth_length. exact Hd. }
    rewrite set_nth_length in IL, I2. split; [ exact IL | ]. split.
    + intros i q Hq. destruct (Nat.eq_dec i t) as [->|Hi].
      * assert (q = p) by congruence. subst q. destruct (I1 t p1) as (k & G1 & G2); [ rewrite set_nth_spec, Nat.eqb_refl, Ep; reflexivity | ].
        exists (Datatypes.S k). cbn [steps]. rewrite Es. split; assumption.
      * destruct (I1 i q) as (k & E2 & E3); [ rewrite set_nth_spec; apply Nat.eqb_neq in Hi; rewrite Hi; exact Hq | ].
        assert (Li : i < length ps) by (apply nth_error_Some; congruence).
        assert (Ag : agree (S i) fs f1).
        { intros n Hn. assert (F := step_frame (S t) p fs n Tp (Hd i t n Li Lt Hi Hn)). rewrite Es in F. symmetry. exact F. }
        destruct (steps_agree (S i) k q fs f1 (Ht i q Hq) Ag) as [G1 G2].
        exists k. rewrite G1. split; [ exact E2 | ]. intros n Hn. rewrite (G2 n Hn). apply E3, Hn.
    + intros n Hn. rewrite (I2 n) by exact Hn. assert (F := step_frame (S t) p fs n Tp (Hn t Lt)). rewrite Es in F. exact F.
Qed.
End Gen.

(* ---------- the computing run ---------- *)
Section R.
Variable V : Type.
Variable veqb : V -> V -> bool.
Notation fsys := (fsys V).
Notation run := (run V).

Lemma fs_write_twice (fs : fsys) n f g : fs_write V (fs_write V fs n f) n g = fs_write V fs n g.
Proof. apply functional_extensionality. intros m. unfold fs_write. destruct (String.eqb m n); reflexivity. Qed.
Lemma run_store fs buf dim sp name fs' : store_h5 V fs buf dim sp name = Ok fs' -> run (store_p V buf dim sp name) fs = (Ok tt, fs').
Proof.
  unfold store_h5, store_p. destruct (head_JP (sp_pw V sp)) as [[J P]| | |]; cbn [obind]; try discriminate.
  destruct (negb (name_fits name)); [ discriminate | ]. destruct (length buf <? dim); [ discriminate | ].
  destruct ((length (sp_pb V sp) <? sp_Np V sp + 1) || (length (sp_qb V sp) <? sp_Nq V sp + 1)); [ discriminate | ].
  intros E. cbn [PRunModel.run]. rewrite fs_write_twice. congruence.
Qed.
Lemma read_h5_at (fs : fsys) sp name : read_h5 V veqb (fun _ => fs name) sp name = read_h5 V veqb fs sp name.
Proof. reflexivity. Qed.

Section C.
Variable name_of : nat -> nat -> string.
Variable sp : space V.
Lemma run_push B ths fs ev m : push V name_of sp B (mkmem V ths fs) ev = Ok m -> run (push_p V name_of sp B ths ev) fs = (Ok (m_th V m), m_fs V m).
Proof.
  destruct ev as [t e]. unfold push, push_p, lift. cbn [m_th m_fs].
  destruct (aread ths t) as [th| | |]; cbn [obind bindp]; try discriminate.
  destruct (awrite (t_buf V th) (t_dim V th) e) as [buf| | |]; cbn [obind bindp]; try discriminate.
  destruct (B <=? t_dim V th + 1).
  - destruct (store_h5 V fs buf (t_dim V th + 1) sp (name_of t (t_tfc V th))) as [fs'| | |] eqn:Es; cbn [obind]; try discriminate.
    destruct (awrite ths t (mkth V buf 0 (t_tfc V th + 1))) as [ths'| | |] eqn:Ea; cbn [obind]; try discriminate.
    intros E. assert (m = mkmem V ths' fs') by congruence. subst m.
    rewrite (run_bind_ok V _ _ fs tt fs' (run_store _ _ _ _ _ _ Es)). reflexivity.
  - destruct (awrite ths t (mkth V buf (t_dim V th + 1) (t_tfc V th))) as [ths'| | |] eqn:Ea; cbn [obind]; try discriminate.
    intros E. assert (m = mkmem V ths' fs) by congruence. subst m. reflexivity.
Qed.
Lemma run_flush ths fs t m : final_flush V name_of sp (mkmem V ths fs) t = Ok m -> run (flush_p V name_of sp ths t) fs = (Ok (m_th V m), m_fs V m).
Proof.
  unfold final_flush, flush_p, lift. cbn [m_th m_fs].
  destruct (aread ths t) as [th| | |]; cbn [obind bindp]; try discriminate.
  destruct (store_h5 V fs (t_buf V th) (t_dim V th) sp (name_of t (t_tfc V th))) as [fs'| | |] eqn:Es; cbn [obind]; try discriminate.
  destruct (awrite ths t _) as [ths'| | |] eqn:Ea; cbn [obind]; try discriminate.
  intros E. assert (m = mkmem V ths' fs') by congruence. subst m.
  rewrite (run_bind_ok V _ _ fs tt fs' (run_store _ _ _ _ _ _ Es)). reflexivity.
Qed.
Lemma run_fold_mem {X} (f : mem V -> X -> outcome (mem V)) (g : list (thread V) -> X -> proc V (list (thread V))) :
  (forall ths fs x m, f (mkmem V ths fs) x = Ok m -> run (g ths x) fs = (Ok (m_th V m), m_fs V m)) ->
  forall l ths fs m, ofold f l (mkmem V ths fs) = Ok m -> run (foldp V g l ths) fs = (Ok (m_th V m), m_fs V m).
Proof.
  intros H. induction l as [|x l IH]; intros ths fs m E; cbn [ofold] in E.
  - assert (m = mkmem V ths fs) by congruence. subst m. reflexivity.
  - destruct (f (mkmem V ths fs) x) as [[ths1 fs1]| | |] eqn:E1; cbn [obind] in E; try discriminate.
    cbn [foldp]. rewrite (run_bind_ok V _ _ fs ths1 fs1 (H _ _ _ _ E1)). apply IH, E.
Qed.
Lemma run_elements B T buf0 fs evs fs' tfc : calculate_elements V name_of sp B T buf0 fs evs = Ok (fs', tfc) ->
  run (elements_p V name_of sp B T buf0 evs) fs = (Ok tfc, fs').
Proof.
  unfold calculate_elements, elements_p. destruct (ofold (push V name_of sp B) evs _) as [[ths1 fs1]| | |] eqn:E1; cbn [obind]; try discriminate.
  destruct (ofold (final_flush V name_of sp) (seq 0 T) _) as [m2| | |] eqn:E2; cbn [obind]; try discriminate. intros E.
  rewrite (run_bind_ok V _ _ _ _ _ (run_fold_mem _ _ (fun ths fs x m => run_push B ths fs x m) _ _ _ _ E1)). cbn [m_th m_fs].
  rewrite (run_bind_ok V _ _ _ _ _ (run_fold_mem _ _ (fun ths fs x m => run_flush ths fs x m) _ _ _ _ E2)). cbn [PRunModel.run]. congruence.
Qed.
Variable srt : list Z -> list nat.
Let dims (fs : fsys) (names : list string) (n : nat) := fold_left (fun n name => n + match fs name with Some f => h_dim V f | None => 0 end) names n.
Lemma run_find1 fs t ks acc : run (foldp V (fun (acc : list string * nat) k =>
      Look (name_of t k) (fun o => Ret (Ok (match o with Some f => (fst acc ++ [name_of t k], snd acc + h_dim V f) | None => acc end)))) ks acc) fs =
  let l := flat_map (fun k => match fs (name_of t k) with Some _ => [name_of t k] | None => [] end) ks in
  (Ok (fst acc ++ l, dims fs l (snd acc)), fs).
Proof.
  revert acc. induction ks as [|k ks IH]; intros [nm tot]; cbn [foldp flat_map].
  - cbn. rewrite app_nil_r. reflexivity.
  - cbn [bindp PRunModel.run]. destruct (fs (name_of t k)) as [f|] eqn:Ef.
    + rewrite IH. cbv zeta. unfold dims. cbn [fst snd app fold_left]. rewrite <- app_assoc, Ef. reflexivity.
    + rewrite IH. reflexivity.
Qed.
Lemma run_find_gen fs tfc ts acc : run (foldp V (fun acc t => foldp V (fun (acc : list string * nat) k =>
      Look (name_of t k) (fun o => Ret (Ok (match o with Some f => (fst acc ++ [name_of t k], snd acc + h_dim V f) | None => acc end)))) (seq 0 (nth t tfc 0)) acc) ts acc) fs =
  let l := flat_map (fun t => flat_map (fun k => match fs (name_of t k) with Some _ => [name_of t k] | None => [] end) (seq 0 (nth t tfc 0))) ts in
  (Ok (fst acc ++ l, dims fs l (snd acc)), fs).
Proof.
  revert acc. induction ts as [|t ts IH]; intros [nm tot]; cbn [foldp flat_map].
  - cbn. rewrite app_nil_r. reflexivity.
  - rewrite (run_bind_ok V _ _ _ _ _ (run_find1 fs t (seq 0 (nth t tfc 0)) (nm, tot))). rewrite IH. cbv zeta. cbn [fst snd].
    rewrite <- app_assoc. unfold dims. rewrite fold_left_app. reflexivity.
Qed.
Lemma run_readall fs names acc all : ofold (fun acc name => do l <- read_h5 V veqb fs sp name; Ok (acc ++ l)) names acc = Ok all ->
  run (foldp V (fun acc name => bindp V (read_p V veqb sp name) (fun l => Ret (Ok (acc ++ l)))) names acc) fs = (Ok all, fs).
Proof.
  revert acc. induction names as [|n names IH]; intros acc E; cbn [ofold foldp] in *.
  - assert (all = acc) by congruence. subst. reflexivity.
  - destruct (read_h5 V veqb fs sp n) as [l| | |] eqn:El; cbn [obind] in E; try discriminate.
    unfold read_p. cbn [bindp PRunModel.run]. rewrite read_h5_at, El. cbn [bindp]. apply IH, E.
Qed.
Lemma run_merge D fs tfc res : merge_files V veqb name_of sp srt D fs tfc = Ok res -> run (merge_p V veqb name_of sp srt D tfc) fs = (Ok res, fs).
Proof.
  unfold merge_files, merge_p, find_files_p. intros E.
  rewrite (run_bind_ok V _ _ _ _ _ (run_find_gen fs tfc (seq 0 (length tfc)) ([], 0))). cbn [fst snd app].
  change (flat_map _ (seq 0 (length tfc))) with (file_list V name_of fs tfc).
  destruct (ofold _ (file_list V name_of fs tfc) []) as [all| | |] eqn:Ea; cbn [obind] in E; try discriminate.
  rewrite (run_bind_ok V _ _ _ _ _ (run_readall fs _ _ _ Ea)). unfold lift. cbn [PRunModel.run]. unfold dims. rewrite E. reflexivity.
Qed.

(* the names touched *)
Let Sub (n : string) := exists t k, n = name_of t k.
Lemma touch_store (S : string -> Prop) buf dim name : S name -> touches V S (store_p V buf dim sp name).
Proof.
  intros H. unfold store_p. destruct (head_JP (sp_pw V sp)) as [[J P]| | |]; try exact I.
  destruct (negb (name_fits name)); [ exact I | ]. destruct (length buf <? dim); [ exact I | ]. destruct (_ || _); [ exact I | ].
  cbn. auto.
Qed.
Lemma touch_elements B T buf0 evs : touches V Sub (elements_p V name_of sp B T buf0 evs).
Proof.
  apply touches_bind; [ | intros ths; apply touches_bind; [ | intros; exact I ] ]; apply touches_fold.
  - intros s [t e] _. unfold push_p, lift. apply touches_bind; [ exact I | ]. intros th. apply touches_bind; [ exact I | ]. intros buf.
    destruct (B <=? t_dim V th + 1); [ | exact I ]. apply touches_bind; [ | intros; exact I ]. apply touch_store. exists t, (t_tfc V th). reflexivity.
  - intros s t _. unfold flush_p, lift. apply touches_bind; [ exact I | ]. intros th. apply touches_bind; [ | intros; exact I ]. apply touch_store. exists t, (t_tfc V th). reflexivity.
Qed.
(* looking at the names found: they are names of thread files *)
Lemma touch_readall names : (forall n, In n names -> Sub n) -> forall acc, touches V Sub (foldp V (fun acc name => bindp V (read_p V veqb sp name) (fun l => Ret (Ok (acc ++ l)))) names acc).
Proof.
  intros H. apply touches_fold. intros s n Hn. apply touches_bind; [ | intros; exact I ]. cbn. split; [ apply H, Hn | intros; exact I ].
Qed.
Lemma touch_merge D tfc : touches V Sub (merge_p V veqb name_of sp srt D tfc).
Proof.
  unfold merge_p. apply (touches_bind' V Sub (fun a => forall n, In n (fst a) -> Sub n)).
  - apply touches_fold. intros s t _. apply touches_fold. intros s' k _. cbn. split; [ exists t, k; reflexivity | intros; exact I ].
  - apply (posts_fold V (fun a : list string * nat => forall n, In n (fst a) -> Sub n)).
    + intros s t Hs. apply (posts_fold V (fun a : list string * nat => forall n, In n (fst a) -> Sub n)); [ | exact Hs ].
      intros s' k Hs' [f|]; cbn; [ | exact Hs' ]. intros n Hn. apply in_app_or in Hn. destruct Hn as [Hn|[<-|[]]]; [ apply Hs', Hn | exists t, k; reflexivity ].
    + intros n [].
  - intros [names total] Hn. apply touches_bind; [ apply touch_readall, Hn | intros; exact I ].
Qed.
End C.
End R.
