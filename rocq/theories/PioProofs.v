From Coq Require Import Permutation Sorted String.
From Verif Require Import Common ArrayLib PWModel NameModel PioModel PioSpec.
Open Scope nat_scope.
Open Scope list_scope.

Lemma aread_nth' {A} (l : list A) i d : i < length l -> aread l i = Ok (nth i l d).
Proof. intros H. apply aread_some, nth_error_nth'. exact H. Qed.

(* ---------- sorted lists ---------- *)
Lemma StronglySorted_unique {A} (R : A -> A -> Prop) l1 l2 :
  (forall a, ~ R a a) -> (forall a b, R a b -> R b a -> False) ->
  StronglySorted R l1 -> StronglySorted R l2 -> (forall x, In x l1 <-> In x l2) -> l1 = l2.
Proof.
  intros Irr Asym. revert l2. induction l1 as [|a l1 IH]; intros [|b l2] S1 S2 H.
  - reflexivity.
  - exfalso. apply (proj2 (H b)). left; reflexivity.
  - exfalso. apply (proj1 (H a)). left; reflexivity.
  - inversion S1 as [|? ? S1' F1]; subst. inversion S2 as [|? ? S2' F2]; subst.
    rewrite Forall_forall in F1, F2.
    assert (a = b).
    { destruct (proj1 (H a) (or_introl eq_refl)) as [Hab|Hin]; [ symmetry; exact Hab | ].
      destruct (proj2 (H b) (or_introl eq_refl)) as [Hab|Hin']; [ exact Hab | ].
      exfalso. apply (Asym a b); [ apply F1, Hin' | apply F2, Hin ]. }
    subst b. f_equal. apply IH; try assumption. intros x. split; intros Hx.
    + destruct (proj1 (H x) (or_intror Hx)) as [<-|Hy]; [ exfalso; apply (Irr a), F1, Hx | exact Hy ].
    + destruct (proj2 (H x) (or_intror Hx)) as [<-|Hy]; [ exfalso; apply (Irr a), F2, Hx | exact Hy ].
Qed.

Lemma NoDup_map_flat_map {A B C} (f : B -> C) (g : A -> list B) (d : C -> A) l :
  NoDup l -> (forall x, In x l -> NoDup (map f (g x))) -> (forall x e, In x l -> In e (g x) -> d (f e) = x) ->
  NoDup (map f (flat_map g l)).
Proof.
  induction l as [|x l IH]; intros N G D; [ constructor | ]. cbn. rewrite map_app. inversion N as [|? ? Nx Nl]; subst.
  assert (App : forall l1 l2 : list C, NoDup l1 -> NoDup l2 -> (forall c, In c l1 -> ~ In c l2) -> NoDup (l1 ++ l2)).
  { induction l1 as [|c l1 IH1]; intros l2 N1 N2 Dj; [ exact N2 | ]. cbn. inversion N1; subst. constructor.
    - rewrite in_app_iff. intros [Hc|Hc]; [ contradiction | apply (Dj c); [ left; reflexivity | exact Hc ] ].
    - apply IH1; try assumption. intros c' Hc'. apply Dj. right; exact Hc'. }
  apply App.
  - apply G. left; reflexivity.
  - apply IH; [ exact Nl | intros; apply G; right; assumption | intros; apply D; [ right; assumption | assumption ] ].
  - intros c H1 H2. apply in_map_iff in H1, H2. destruct H1 as (e1 & <- & H1). destruct H2 as (e2 & E & H2).
    apply in_flat_map in H2. destruct H2 as (y & Hy & H2).
    assert (x = y). { rewrite <- (D x e1 (or_introl eq_refl) H1), <- (D y e2 (or_intror Hy) H2), E. reflexivity. }
    subst y. contradiction.
Qed.

(* gathering by thread is a permutation *)
Lemma gather_perm {X} (T : nat) (evs : list (nat * X)) : (forall ev, In ev evs -> fst ev < T) ->
  Permutation (flat_map (fun t => map snd (filter (fun ev => fst ev =? t) evs)) (seq 0 T)) (map snd evs).
Proof.
  induction evs as [|[t x] evs IH]; intros H.
  - cbn. clear H. induction (seq 0 T); [ constructor | assumption ].
  - assert (Ht : t < T) by (apply (H (t, x)); left; reflexivity).
    assert (Hs : seq 0 T = seq 0 t ++ t :: seq (S t) (T - S t)).
    { replace T with (t + (1 + (T - S t))) at 1 by lia. rewrite seq_app. cbn [seq plus]. reflexivity. }
    specialize (IH (fun ev Hev => H ev (or_intror Hev))). rewrite Hs in *. rewrite flat_map_app in *. cbn [flat_map] in *.
    cbn [filter fst map snd]. rewrite Nat.eqb_refl. cbn [map snd].
    assert (E : forall l, ~ In t l -> flat_map (fun u => map snd (if t =? u then (t, x) :: filter (fun ev => fst ev =? u) evs else filter (fun ev => fst ev =? u) evs)) l
                   = flat_map (fun u => map snd (filter (fun ev : nat * X => fst ev =? u) evs)) l).
    { induction l as [|u l IHl]; intros Hn; [ reflexivity | ]. cbn. rewrite IHl by (intros Hc; apply Hn; right; exact Hc).
      destruct (Nat.eqb_spec t u) as [->|]; [ exfalso; apply Hn; left; reflexivity | reflexivity ]. }
    rewrite !E by (rewrite in_seq; lia). cbn [app]. rewrite <- Permutation_middle. constructor. exact IH.
Qed.

Lemma filter_app_one {X} (f : X -> bool) l x : filter f (l ++ [x]) = filter f l ++ (if f x then [x] else []).
Proof. rewrite filter_app. reflexivity. Qed.

Section P.
Variable V : Type.
Variable veqb : V -> V -> bool.
Variable vzero : V -> bool.
Hypothesis Heq : decides_eq veqb.
Notation elem := (elem V).
Notation h5file := (h5file V).
Notation fsys := (fsys V).

(* the file written for a list of elements *)
Definition file_of (sp : space V) (es : list elem) : h5file :=
  mkh5 V (length (sp_pw V sp)) (sp_Np V sp) (sp_Nq V sp) (length es) (sp_pb V sp) (sp_qb V sp) (sp_pw V sp) es.

Lemma head_JP_wf sp : well_formed sp -> exists s, In s (sp_pw V sp) /\ head_JP (sp_pw V sp) = Ok (two_J_3N s, P_3N s).
Proof.
  intros (_ & _ & Hn & _). destruct (sp_pw V sp) as [|s l] eqn:E; [ congruence | ].
  exists s. split; [ left; reflexivity | reflexivity ].
Qed.
Lemma pw_row_id sp s : well_formed sp -> In s (sp_pw V sp) -> map (pw_row (two_J_3N s) (P_3N s)) (sp_pw V sp) = sp_pw V sp.
Proof.
  intros (_ & _ & _ & H) Hs. rewrite <- map_id. apply map_ext_in. intros t Ht. destruct (H t s Ht Hs) as [<- <-].
  destruct t; reflexivity.
Qed.

Lemma store_ok fs buf dim sp name : well_formed sp -> name_fits name = true -> dim <= length buf ->
  store_h5 V fs buf dim sp name = Ok (fs_write V fs name (file_of sp (firstn dim buf))).
Proof.
  intros W Hn Hd. destruct (head_JP_wf sp W) as (s & Hs & Eh). unfold store_h5. rewrite Eh. cbn [obind]. rewrite Hn. cbn [negb].
  destruct (Nat.ltb_spec (length buf) dim); [ lia | ]. pose proof W as (Lp & Lq & _).
  rewrite Lp, Lq, !Nat.ltb_irrefl. cbn [orb]. rewrite <- Lp, <- Lq, !firstn_all. rewrite (pw_row_id sp s W Hs).
  unfold file_of. rewrite firstn_length, Nat.min_l by exact Hd. reflexivity.
Qed.

Lemma check_equal_ok {X} (eqb : X -> X -> bool) n f p : n <= length f -> n <= length p ->
  (check_equal eqb n f p = Ok tt <-> forall i a b, i < n -> nth_error f i = Some a -> nth_error p i = Some b -> eqb a b = true) /\
  (check_equal eqb n f p = Ok tt \/ check_equal eqb n f p = Err).
Proof.
  intros Lf Lp. unfold check_equal. induction n as [|n IH].
  - cbn. split; [ split; [ intros _ i; lia | reflexivity ] | left; reflexivity ].
  - rewrite seq_S, ofold_app. destruct IH as [IH1 IH2]; try lia. destruct IH2 as [E|E]; rewrite E in *; cbn [obind ofold plus].
    + destruct (aread_ok f n) as (a & Ea & Na); [ lia | ]. destruct (aread_ok p n) as (b & Eb & Nb); [ lia | ].
      rewrite Ea, Eb. cbn [obind]. destruct (eqb a b) eqn:Eq; cbn [obind].
      * split; [ | left; reflexivity ]. split; [ | reflexivity ]. intros _ i x y Hi Hx Hy.
        destruct (Nat.eq_dec i n) as [->|]; [ congruence | ]. apply (proj1 IH1 eq_refl i); try assumption. lia.
      * split; [ | right; reflexivity ]. split; [ discriminate | ]. intros H. rewrite (H n a b) in Eq by (lia || assumption). discriminate.
    + split; [ | right; reflexivity ]. split; [ discriminate | ]. intros H. exfalso.
      assert (Hc : @Err unit = Ok tt) by (apply IH1; intros i a b Hi; apply H; lia). discriminate.
Qed.

Lemma nth_error_ext {A} (a b : list A) : length a = length b ->
  (forall i x y, nth_error a i = Some x -> nth_error b i = Some y -> x = y) -> a = b.
Proof.
  intros L H. apply list_ext; [ exact L | ]. intros i Hi.
  destruct (nth_error a i) as [x|] eqn:Ea; [ | apply nth_error_None in Ea; lia ].
  destruct (nth_error b i) as [y|] eqn:Eb; [ | apply nth_error_None in Eb; lia ].
  rewrite (H i x y Ea Eb). reflexivity.
Qed.

(* reading a stored file in any well-formed model space *)
Lemma read_stored fs name sp sp' es : well_formed sp -> well_formed sp' -> name_fits name = true ->
  fs name = Some (file_of sp es) ->
  (sp' = sp -> read_h5 V veqb fs sp' name = Ok es) /\ (sp' <> sp -> read_h5 V veqb fs sp' name = Err).
Proof.
  intros W W' Hn Hf. destruct (head_JP_wf sp' W') as (s' & Hs' & Eh).
  pose proof W as (Lp & Lq & Hne & HJ). pose proof W' as (Lp' & Lq' & Hne' & HJ').
  unfold read_h5. rewrite Eh. cbn [obind]. rewrite Hn, Hf. cbn [negb file_of h_Nalpha h_Np h_Nq h_pb h_qb h_pw h_elems h_dim].
  rewrite Nat.eqb_refl.
  destruct (Nat.eqb_spec (length (sp_pw V sp)) (length (sp_pw V sp'))) as [E1|E1];
  [ destruct (Nat.eqb_spec (sp_Np V sp) (sp_Np V sp')) as [E2|E2]; [ destruct (Nat.eqb_spec (sp_Nq V sp) (sp_Nq V sp')) as [E3|E3] | ] | ];
  cbn [andb negb]; try (split; [ intros ->; congruence | reflexivity ]).
  destruct (check_equal_ok veqb (sp_Np V sp' + 1) (sp_pb V sp) (sp_pb V sp')) as [C1 D1]; [ lia | lia | ].
  destruct (check_equal_ok veqb (sp_Nq V sp' + 1) (sp_qb V sp) (sp_qb V sp')) as [C2 D2]; [ lia | lia | ].
  destruct (check_equal_ok (pw_same (two_J_3N s') (P_3N s')) (length (sp_pw V sp')) (sp_pw V sp) (sp_pw V sp')) as [C3 D3]; [ lia | lia | ].
  assert (B1 : check_equal veqb (sp_Np V sp' + 1) (sp_pb V sp) (sp_pb V sp') = Ok tt <-> sp_pb V sp = sp_pb V sp').
  { rewrite C1. split.
    - intros H. apply nth_error_ext; [ lia | ]. intros i x y Hx Hy. apply Heq. apply (H i); try assumption.
      rewrite <- Lp'. apply nth_error_Some. congruence.
    - intros E i a b _ Ha Hb. rewrite E in Ha. apply Heq. congruence. }
  assert (B2 : check_equal veqb (sp_Nq V sp' + 1) (sp_qb V sp) (sp_qb V sp') = Ok tt <-> sp_qb V sp = sp_qb V sp').
  { rewrite C2. split.
    - intros H. apply nth_error_ext; [ lia | ]. intros i x y Hx Hy. apply Heq. apply (H i); try assumption.
      rewrite <- Lq'. apply nth_error_Some. congruence.
    - intros E i a b _ Ha Hb. rewrite E in Ha. apply Heq. congruence. }
  assert (B3 : check_equal (pw_same (two_J_3N s') (P_3N s')) (length (sp_pw V sp')) (sp_pw V sp) (sp_pw V sp') = Ok tt <-> sp_pw V sp = sp_pw V sp').
  { rewrite C3. split.
    - intros H. apply nth_error_ext; [ exact E1 | ]. intros i x y Hx Hy.
      specialize (H i x y ltac:(apply nth_error_Some; congruence) Hx Hy). unfold pw_same in H.
      rewrite !andb_true_iff, !Z.eqb_eq in H. destruct (HJ' y s' (nth_error_In _ _ Hy) Hs') as [HJ1 HP1].
      destruct x, y; cbn in *. destruct H as ((((((((-> & ->) & ->) & ->) & ->) & ->) & ->) & ->) & ->). subst. reflexivity.
    - intros E i a b _ Ha Hb. rewrite E in Ha. assert (a = b) as -> by congruence.
      destruct (HJ' b s' (nth_error_In _ _ Hb) Hs') as [HJ1 HP1]. unfold pw_same. rewrite HJ1, HP1, !Z.eqb_refl. reflexivity. }
  split.
  - intros ->. rewrite (proj2 B1 eq_refl), (proj2 B2 eq_refl), (proj2 B3 eq_refl). reflexivity.
  - intros Hd. destruct D1 as [D1|D1]; rewrite D1; cbn [obind]; [ | reflexivity ].
    destruct D2 as [D2|D2]; rewrite D2; cbn [obind]; [ | reflexivity ].
    destruct D3 as [D3|D3]; rewrite D3; cbn [obind]; [ | reflexivity ].
    exfalso. apply Hd. apply B1 in D1. apply B2 in D2. apply B3 in D3. destruct sp, sp'; cbn in *. subst. reflexivity.
Qed.

(* ---------- thread buffers ---------- *)
Section Threads.
Variable name_of : nat -> nat -> string.
Variable sp : space V.
Hypothesis Hinj : forall t k t' k', name_of t k = name_of t' k' -> t = t' /\ k = k'.
Hypothesis Hsp : well_formed sp.
Variable fs0 : fsys.
Variables (B T K : nat).
Hypothesis HB : 1 <= B.
(* K: number of emitted elements; no thread writes more than K+1 files *)
Hypothesis Hfit : forall t k, t < T -> k <= K -> name_fits (name_of t k) = true.

Definition mine (evs : list (nat * elem)) (t : nat) : list elem := map snd (filter (fun ev => fst ev =? t) evs).

(* [fl t]: has thread t been finally flushed *)
Definition th_inv (evs : list (nat * elem)) (flushed : bool) (fs : fsys) (t : nat) (th : thread V) (cs : list (list elem)) : Prop :=
  length (t_buf V th) = B /\ length cs = t_tfc V th /\
  (forall k c, nth_error cs k = Some c -> fs (name_of t k) = Some (file_of sp c)) /\
  (if flushed then concat cs = mine evs t
   else t_dim V th < B /\ concat cs ++ firstn (t_dim V th) (t_buf V th) = mine evs t).

Definition inv (evs : list (nat * elem)) (fl : nat -> bool) (m : mem V) : Prop :=
  length (m_th V m) = T /\
  exists chunks : nat -> list (list elem),
   (forall t th, nth_error (m_th V m) t = Some th -> th_inv evs (fl t) (m_fs V m) t th (chunks t)) /\
   (forall n, (forall t k, t < T -> k < length (chunks t) -> n <> name_of t k) -> m_fs V m n = fs0 n).

Lemma fs_write_same (fs : fsys) n f : fs_write V fs n f n = Some f.
Proof. unfold fs_write. rewrite String.eqb_refl. reflexivity. Qed.
Lemma fs_write_other (fs : fsys) n f n' : n' <> n -> fs_write V fs n f n' = fs n'.
Proof. intros H. unfold fs_write. destruct (String.eqb_spec n' n); [ congruence | reflexivity ]. Qed.

Definition upd {A} (f : nat -> A) (t : nat) (v : A) : nat -> A := fun u => if u =? t then v else f u.
Lemma upd_same {A} (f : nat -> A) t v : upd f t v t = v.
Proof. unfold upd. rewrite Nat.eqb_refl. reflexivity. Qed.
Lemma upd_other {A} (f : nat -> A) t v u : u <> t -> upd f t v u = f u.
Proof. intros H. unfold upd. destruct (Nat.eqb_spec u t); [ congruence | reflexivity ]. Qed.

Lemma firstn_S_write {A} (buf buf' : list A) i e : nth_error buf' i = Some e ->
  (forall j, j <> i -> nth_error buf' j = nth_error buf j) -> length buf' = length buf ->
  firstn (i + 1) buf' = firstn i buf ++ [e].
Proof.
  revert buf buf'; induction i as [|i IH]; intros buf buf' Hn Ho L.
  - destruct buf' as [|x buf']; [ discriminate | ]. cbn in Hn. injection Hn as ->. reflexivity.
  - destruct buf' as [|x buf']; [ discriminate | ]. destruct buf as [|y buf]; [ discriminate | ].
    cbn [plus firstn app]. f_equal.
    + specialize (Ho 0 ltac:(lia)). cbn in Ho. congruence.
    + apply IH; [ exact Hn | intros j Hj; apply (Ho (S j)); lia | cbn in L; lia ].
Qed.

Lemma mine_app evs t e u : mine (evs ++ [(t, e)]) u = mine evs u ++ (if t =? u then [e] else []).
Proof. unfold mine. rewrite filter_app, map_app. cbn. destruct (t =? u); reflexivity. Qed.

Definition tfc_le (fl : nat -> bool) (n : nat) (m : mem V) : Prop :=
  forall t th, nth_error (m_th V m) t = Some th -> t_tfc V th <= n + (if fl t then 1 else 0).

Lemma push_ok evs t e m n : t < T -> n <= K -> inv evs (fun _ => false) m -> tfc_le (fun _ => false) n m ->
  exists m', push V name_of sp B m (t, e) = Ok m' /\ inv (evs ++ [(t, e)]) (fun _ => false) m' /\ tfc_le (fun _ => false) (S n) m'.
Proof.
  intros Ht HnK (L & chunks & H & Fr) Hle. unfold push.
  destruct (aread_ok (m_th V m) t) as (th & Eth & Nth); [ lia | ]. rewrite Eth. cbn [obind].
  destruct (H t th Nth) as (Lb & Lc & Fi & Hd & Hc).
  destruct (awrite_ok (t_buf V th) (t_dim V th) e) as (buf & Eb & Lbuf & Nb & Ob); [ lia | ].
  rewrite Eb. cbn [obind]. pose proof (firstn_S_write _ _ _ _ Nb Ob Lbuf) as Hfirst.
  assert (Hn : t_tfc V th <= n) by (specialize (Hle t th Nth); cbn in Hle; lia).
  destruct (Nat.leb_spec B (t_dim V th + 1)).
  - rewrite store_ok by (try assumption; try (apply Hfit; lia); lia). cbn [obind].
    destruct (awrite_ok (m_th V m) t (mkth V buf 0 (t_tfc V th + 1))) as (ths & Es & Ls & Ns & Os); [ lia | ].
    rewrite Es. cbn [obind]. eexists; split; [ reflexivity | ]. split.
    2:{ intros u thu Hu. cbn [m_th] in Hu. destruct (Nat.eq_dec u t) as [->|Hne];
        [ rewrite Ns in Hu; injection Hu as <-; cbn [t_tfc]; lia | rewrite Os in Hu by exact Hne; specialize (Hle u thu Hu); cbn in *; lia ]. }
    split; [ cbn; lia | ].
    exists (upd chunks t (chunks t ++ [firstn (t_dim V th + 1) buf])). split.
    + cbn [m_th m_fs]. intros u thu Hu. destruct (Nat.eq_dec u t) as [->|Hne].
      * rewrite Ns in Hu. injection Hu as <-. rewrite upd_same. unfold th_inv. cbn [t_buf t_dim t_tfc firstn].
        split; [ lia | ]. split; [ rewrite app_length; cbn; lia | ]. split.
        -- intros k c Hk. destruct (Nat.eq_dec k (t_tfc V th)) as [->|Hk'].
           ++ rewrite nth_error_app2, Lc, Nat.sub_diag in Hk by lia. injection Hk as <-. apply fs_write_same.
           ++ rewrite fs_write_other. { apply Fi. rewrite nth_error_app1 in Hk; [ exact Hk | ].
                assert (k < length (chunks t ++ [firstn (t_dim V th + 1) buf])) by (apply nth_error_Some; congruence).
                rewrite app_length in *. cbn in *. lia. }
              intros Heqn. apply Hinj in Heqn. lia.
        -- split; [ lia | ]. rewrite app_nil_r, concat_app. cbn [concat]. rewrite app_nil_r, Hfirst, app_assoc, Hc.
           rewrite mine_app, Nat.eqb_refl. reflexivity.
      * rewrite Os in Hu by exact Hne. rewrite upd_other by exact Hne. destruct (H u thu Hu) as (Lb' & Lc' & Fi' & Hd').
        split; [ exact Lb' | ]. split; [ exact Lc' | ]. split.
        -- intros k c Hk. rewrite fs_write_other; [ apply Fi', Hk | ]. intros Heqn. apply Hinj in Heqn. lia.
        -- rewrite mine_app. destruct (Nat.eqb_spec t u); [ congruence | ]. rewrite app_nil_r. exact Hd'.
    + cbn [m_fs]. intros nm Hnm. rewrite fs_write_other.
      * apply Fr. intros u k Hu Hk. apply Hnm; [ exact Hu | ]. destruct (Nat.eq_dec u t) as [->|Hne];
          [ rewrite upd_same, app_length; cbn; lia | rewrite upd_other by exact Hne; exact Hk ].
      * apply Hnm; [ exact Ht | ]. rewrite upd_same, app_length. cbn. lia.
  - destruct (awrite_ok (m_th V m) t (mkth V buf (t_dim V th + 1) (t_tfc V th))) as (ths & Es & Ls & Ns & Os); [ lia | ].
    rewrite Es. cbn [obind]. eexists; split; [ reflexivity | ]. split.
    2:{ intros u thu Hu. cbn [m_th] in Hu. destruct (Nat.eq_dec u t) as [->|Hne];
        [ rewrite Ns in Hu; injection Hu as <-; cbn [t_tfc]; lia | rewrite Os in Hu by exact Hne; specialize (Hle u thu Hu); cbn in *; lia ]. }
    split; [ cbn; lia | ].
    exists chunks. split; [ | exact Fr ].
    cbn [m_th m_fs]. intros u thu Hu. destruct (Nat.eq_dec u t) as [->|Hne].
    + rewrite Ns in Hu. injection Hu as <-. unfold th_inv. cbn [t_buf t_dim t_tfc].
      split; [ lia | ]. split; [ exact Lc | ]. split; [ exact Fi | ]. split; [ lia | ].
      rewrite Hfirst, app_assoc, Hc, mine_app, Nat.eqb_refl. reflexivity.
    + rewrite Os in Hu by exact Hne. destruct (H u thu Hu) as (Lb' & Lc' & Fi' & Hd').
      split; [ exact Lb' | ]. split; [ exact Lc' | ]. split; [ exact Fi' | ].
      rewrite mine_app. destruct (Nat.eqb_spec t u); [ congruence | ]. rewrite app_nil_r. exact Hd'.
Qed.

Lemma flush_ok evs fl t m n : t < T -> n <= K -> fl t = false -> inv evs fl m -> tfc_le fl n m ->
  exists m', final_flush V name_of sp m t = Ok m' /\ inv evs (upd fl t true) m' /\ tfc_le (upd fl t true) n m'.
Proof.
  intros Ht HnK Hfl (L & chunks & H & Fr) Hle. unfold final_flush.
  destruct (aread_ok (m_th V m) t) as (th & Eth & Nth); [ lia | ]. rewrite Eth. cbn [obind].
  destruct (H t th Nth) as (Lb & Lc & Fi & Hd). rewrite Hfl in Hd. destruct Hd as [Hd Hc].
  assert (Hn : t_tfc V th <= n) by (specialize (Hle t th Nth); rewrite Hfl in Hle; lia).
  rewrite store_ok by (try assumption; try (apply Hfit; lia); lia). cbn [obind].
  destruct (awrite_ok (m_th V m) t (mkth V (t_buf V th) (t_dim V th) (t_tfc V th + 1))) as (ths & Es & Ls & Ns & Os); [ lia | ].
  rewrite Es. cbn [obind]. eexists; split; [ reflexivity | ]. split.
  2:{ intros u thu Hu. cbn [m_th] in Hu. destruct (Nat.eq_dec u t) as [->|Hne];
      [ rewrite Ns in Hu; injection Hu as <-; rewrite upd_same; cbn [t_tfc]; lia
      | rewrite Os in Hu by exact Hne; rewrite upd_other by exact Hne; apply Hle, Hu ]. }
  split; [ cbn; lia | ].
  exists (upd chunks t (chunks t ++ [firstn (t_dim V th) (t_buf V th)])). split.
  + cbn [m_th m_fs]. intros u thu Hu. destruct (Nat.eq_dec u t) as [->|Hne].
    * rewrite Ns in Hu. injection Hu as <-. rewrite !upd_same. unfold th_inv. cbn [t_buf t_dim t_tfc].
      split; [ lia | ]. split; [ rewrite app_length; cbn; lia | ]. split.
      -- intros k c Hk. destruct (Nat.eq_dec k (t_tfc V th)) as [->|Hk'].
         ++ rewrite nth_error_app2, Lc, Nat.sub_diag in Hk by lia. injection Hk as <-. apply fs_write_same.
         ++ rewrite fs_write_other. { apply Fi. rewrite nth_error_app1 in Hk; [ exact Hk | ].
              assert (k < length (chunks t ++ [firstn (t_dim V th) (t_buf V th)])) by (apply nth_error_Some; congruence).
              rewrite app_length in *. cbn in *. lia. }
            intros Heqn. apply Hinj in Heqn. lia.
      -- rewrite concat_app. cbn [concat]. rewrite app_nil_r. exact Hc.
    * rewrite Os in Hu by exact Hne. rewrite !upd_other by exact Hne. destruct (H u thu Hu) as (Lb' & Lc' & Fi' & Hd').
      split; [ exact Lb' | ]. split; [ exact Lc' | ]. split; [ | exact Hd' ].
      intros k c Hk. rewrite fs_write_other; [ apply Fi', Hk | ]. intros Heqn. apply Hinj in Heqn. lia.
  + cbn [m_fs]. intros nm Hnm. rewrite fs_write_other.
    * apply Fr. intros u k Hu Hk. apply Hnm; [ exact Hu | ]. destruct (Nat.eq_dec u t) as [->|Hne];
        [ rewrite upd_same, app_length; cbn; lia | rewrite upd_other by exact Hne; exact Hk ].
    * apply Hnm; [ exact Ht | ]. rewrite upd_same, app_length. cbn. lia.
Qed.

Lemma calculate_ok (buf0 : nat -> list elem) evs :
  (forall t, length (buf0 t) = B) -> (forall ev, In ev evs -> fst ev < T) -> length evs <= K ->
  exists fs tfc chunks, calculate_elements V name_of sp B T buf0 fs0 evs = Ok (fs, tfc) /\
    length tfc = T /\ (forall t, t < T -> nth t tfc 0 <= K + 1) /\
    (forall t, t < T -> length (chunks t) = nth t tfc 0 /\ concat (chunks t) = mine evs t) /\
    (forall t k c, t < T -> nth_error (chunks t) k = Some c -> fs (name_of t k) = Some (file_of sp c)) /\
    (forall n, (forall t k, t < T -> k < nth t tfc 0 -> n <> name_of t k) -> fs n = fs0 n).
Proof.
  intros Lb Hev HK. unfold calculate_elements.
  destruct (ofold_inv (fun d m => inv d (fun _ => false) m /\ tfc_le (fun _ => false) (length d) m) (push V name_of sp B) evs
     (mkmem V (map (fun t => mkth V (buf0 t) 0 0) (seq 0 T)) fs0)) as (m & E & I & Hle).
  { split.
    2:{ intros t th Hth. cbn [m_th] in Hth. rewrite nth_error_map in Hth. destruct (nth_error (seq 0 T) t) as [u|]; [ | discriminate ].
        cbn in Hth. injection Hth as <-. cbn. lia. }
    split; [ cbn; rewrite map_length, seq_length; reflexivity | ]. exists (fun _ => []). split; [ | reflexivity ].
    cbn [m_th m_fs]. intros t th Hth. rewrite nth_error_map in Hth. destruct (nth_error (seq 0 T) t) as [u|] eqn:Eu; [ | discriminate ].
    cbn in Hth. injection Hth as <-. unfold th_inv. cbn. split; [ apply Lb | ]. split; [ reflexivity | ].
    split; [ intros k c Hk; destruct k; discriminate | ]. split; [ lia | reflexivity ]. }
  { intros d [t e] r s Hl [Hi Hle]. destruct (push_ok d t e s (length d)) as (s' & Es & I' & Hle'); try assumption.
    - apply (Hev (t, e)). rewrite Hl. apply in_or_app. right; left; reflexivity.
    - rewrite Hl, app_length in HK. lia.
    - exists s'. split; [ exact Es | ]. split; [ exact I' | ]. rewrite app_length. cbn [length]. rewrite Nat.add_1_r. exact Hle'. }
  rewrite E. cbn [obind].
  destruct (ofold_inv (fun d m => inv evs (fun t => existsb (Nat.eqb t) d) m /\ tfc_le (fun t => existsb (Nat.eqb t) d) (length evs) m)
     (final_flush V name_of sp) (seq 0 T) m) as (m' & E' & I' & Hle').
  { split; [ exact I | exact Hle ]. }
  { intros d t r s Hl [Hi Hlei].
    assert (Ht : t < T). { assert (In t (seq 0 T)) by (rewrite Hl; apply in_or_app; right; left; reflexivity). apply in_seq in H. lia. }
    assert (Hnd : existsb (Nat.eqb t) d = false).
    { destruct (existsb (Nat.eqb t) d) eqn:Ex; [ | reflexivity ]. apply existsb_exists in Ex. destruct Ex as (y & Hy & Hty).
      apply Nat.eqb_eq in Hty. subst y. pose proof (seq_NoDup T 0) as ND. rewrite Hl in ND. apply NoDup_remove_2 in ND.
      exfalso. apply ND, in_or_app. left; exact Hy. }
    destruct (flush_ok evs _ t s _ Ht HK Hnd Hi Hlei) as (s' & Es & (L & ch & H1 & H2) & Hle2). exists s'. split; [ exact Es | ]. split.
    2:{ intros u th Hu. specialize (Hle2 u th Hu). unfold upd in Hle2. rewrite existsb_app. cbn [existsb].
        rewrite orb_false_r. destruct (Nat.eqb_spec u t); [ rewrite orb_true_r; exact Hle2 | rewrite orb_false_r; exact Hle2 ]. }
    split; [ exact L | ].
    exists ch. split; [ | exact H2 ]. intros u th Hu. specialize (H1 u th Hu). unfold upd in H1. rewrite existsb_app. cbn [existsb].
    rewrite orb_false_r. destruct (Nat.eqb_spec u t); [ rewrite orb_true_r; exact H1 | rewrite orb_false_r; exact H1 ]. }
  rewrite E'. cbn [obind]. destruct I' as (L & chunks & H1 & H2).
  exists (m_fs V m'), (map (t_tfc V) (m_th V m')), chunks. split; [ reflexivity | ]. split; [ rewrite map_length; exact L | ].
  assert (Hth : forall t, t < T -> exists th, nth_error (m_th V m') t = Some th /\ nth t (map (t_tfc V) (m_th V m')) 0 = t_tfc V th).
  { intros t Ht. destruct (nth_error (m_th V m') t) as [th|] eqn:En; [ | apply nth_error_None in En; lia ].
    exists th. split; [ reflexivity | ]. apply nth_error_nth. rewrite nth_error_map, En. reflexivity. }
  assert (Hfl : forall t, t < T -> existsb (Nat.eqb t) (seq 0 T) = true).
  { intros t Ht. apply existsb_exists. exists t. split; [ apply in_seq; lia | apply Nat.eqb_refl ]. }
  split; [ | split; [ | split ] ].
  - intros t Ht. destruct (Hth t Ht) as (th & Eth & ->). specialize (Hle' t th Eth). cbn beta in Hle'. rewrite Hfl in Hle' by exact Ht. lia.
  - intros t Ht. destruct (Hth t Ht) as (th & Eth & ->). destruct (H1 t th Eth) as (_ & Lc & _ & Hc). rewrite Hfl in Hc by exact Ht. auto.
  - intros t k c Ht Hk. destruct (Hth t Ht) as (th & Eth & _). destruct (H1 t th Eth) as (_ & _ & Fi & _). apply Fi, Hk.
  - intros n Hn. apply H2. intros t k Ht Hk. apply Hn; [ exact Ht | ]. destruct (Hth t Ht) as (th & Eth & ->).
    destruct (H1 t th Eth) as (_ & Lc & _). lia.
Qed.

(* ---------- merging ---------- *)
Variable srt : list Z -> list nat.
Hypothesis Hsrt : sorts srt.

(* all existing files among those looked at are files of this model space *)
Lemma read_all fs names (cont : string -> list elem) acc :
  (forall n, In n names -> name_fits n = true /\ fs n = Some (file_of sp (cont n))) ->
  ofold (fun acc name => do l <- read_h5 V veqb fs sp name; Ok (acc ++ l)%list) names acc = Ok (acc ++ flat_map cont names)%list /\
  forall k, fold_left (fun n name => n + match fs name with Some f => h_dim V f | None => 0 end) names k = k + length (flat_map cont names).
Proof.
  revert acc; induction names as [|n names IH]; intros acc H.
  - cbn. rewrite app_nil_r. split; [ reflexivity | intros; lia ].
  - destruct (H n (or_introl eq_refl)) as [Hf Hn]. cbn [ofold flat_map fold_left].
    destruct (read_stored fs n sp sp (cont n) Hsp Hsp Hf Hn) as [-> _]; [ | reflexivity ]. cbn [obind].
    destruct (IH (acc ++ cont n)%list) as [-> IH2]; [ intros; apply H; right; assumption | ].
    rewrite <- app_assoc. split; [ reflexivity | ]. intros k. rewrite Hn. cbn [file_of h_dim]. rewrite IH2, app_length. lia.
Qed.

Lemma check_all_ok D (l : list elem) : (forall e, In e l -> index_ok V D e = true) ->
  ofold (fun _ e => if index_ok V D e then Ok tt else Err) l tt = Ok tt.
Proof. induction l as [|e l IH]; intros H; [ reflexivity | ]. cbn. rewrite H by (left; reflexivity). cbn. apply IH. intros; apply H; right; assumption. Qed.
Lemma check_ord_ok n (l : list nat) : (forall i, In i l -> i < n) ->
  ofold (fun _ i => if i <? n then Ok tt else Err) l tt = Ok tt.
Proof.
  induction l as [|e l IH]; intros H; [ reflexivity | ]. cbn [ofold]. destruct (Nat.ltb_spec e n) as [|Hc]; [ cbn [obind]; apply IH; intros; apply H; right; assumption | ].
  specialize (H e (or_introl eq_refl)). lia.
Qed.
Lemma gather_ok {X} (all : list X) d ord acc : (forall i, In i ord -> i < length all) ->
  ofold (fun acc i => do e <- aread all i; Ok (acc ++ [e])%list) ord acc = Ok (acc ++ map (fun i => nth i all d) ord)%list.
Proof.
  revert acc; induction ord as [|i ord IH]; intros acc H; [ cbn; rewrite app_nil_r; reflexivity | ].
  cbn [ofold map]. rewrite (aread_nth' all i d) by (apply H; left; reflexivity). cbn [obind].
  rewrite IH by (intros; apply H; right; assumption). rewrite <- app_assoc. reflexivity.
Qed.

Definition key (D : Z) (e : elem) : Z := (e_row V e * D + e_col V e)%Z.
Definition rc (e : elem) : Z * Z := (e_row V e, e_col V e).
Definition in_matrix (D : Z) (e : elem) : Prop := (0 <= e_row V e < D)%Z /\ (0 <= e_col V e < D)%Z.

Lemma key_before D a b : in_matrix D a -> in_matrix D b -> (key D a < key D b)%Z -> before a b.
Proof. unfold in_matrix, key, before. intros. nia. Qed.
Lemma key_inj D a b : in_matrix D a -> in_matrix D b -> key D a = key D b -> rc a = rc b.
Proof.
  unfold in_matrix, key, rc. intros. assert (e_row V a = e_row V b) by nia. assert (e_col V a = e_col V b) by nia. congruence.
Qed.

Lemma sorted_strict D l : (forall e, In e l -> in_matrix D e) -> NoDup (map rc l) ->
  StronglySorted Z.le (map (key D) l) -> StronglySorted before l.
Proof.
  induction l as [|a l IH]; intros Hm N S; [ constructor | ]. cbn in N, S. inversion N; subst. inversion S as [|? ? S' F]; subst.
  constructor.
  - apply IH; try assumption. intros; apply Hm; right; assumption.
  - rewrite Forall_forall in *. intros b Hb.
    assert (key D a <= key D b)%Z by (apply F, in_map, Hb).
    apply (key_before D); [ apply Hm; left; reflexivity | apply Hm; right; exact Hb | ].
    assert (key D a <> key D b); [ | lia ]. intros E. apply H1.
    rewrite (key_inj D a b); [ apply in_map, Hb | apply Hm; left; reflexivity | apply Hm; right; exact Hb | exact E ].
Qed.

Lemma map_nth_seq_id {X} (l : list X) d : map (fun i => nth i l d) (seq 0 (length l)) = l.
Proof.
  apply list_ext; [ rewrite map_length, seq_length; reflexivity | ]. intros i Hi. rewrite map_length, seq_length in Hi.
  rewrite nth_error_map, nth_error_nth' with (l := seq 0 (length l)) (d := 0) by (rewrite seq_length; exact Hi).
  rewrite seq_nth by exact Hi. cbn. symmetry. apply nth_error_nth'. exact Hi.
Qed.

(* merging files whose concatenation is [all] *)
Lemma merge_ok D fs tfc (cont : string -> list elem) :
  (forall n, In n (file_list V name_of fs tfc) -> name_fits n = true /\ fs n = Some (file_of sp (cont n))) ->
  let all := flat_map cont (file_list V name_of fs tfc) in
  (forall e, In e all -> in_matrix D e) -> NoDup (map rc all) ->
  exists res, merge_files V veqb name_of sp srt D fs tfc = Ok res /\ Permutation res all /\ StronglySorted before res.
Proof.
  intros Hf all Hm Nd. unfold merge_files. destruct (read_all fs _ cont [] Hf) as [-> Ht]. cbn [obind app]. rewrite Ht. fold all.
  cbn [plus]. rewrite Nat.eqb_refl. cbn [negb].
  assert (Hidx : forall e, In e all -> index_ok V D e = true).
  { intros e He. destruct (Hm e He). unfold index_ok. rewrite !andb_true_iff, !negb_true_iff, !orb_false_iff, !Z.ltb_ge. nia. }
  rewrite check_all_ok by exact Hidx. cbn [obind].
  set (keys := map (fun e => e_row V e * D + e_col V e)%Z all).
  destruct (Hsrt keys) as [Hp Hs]. assert (Lk : length keys = length all) by (unfold keys; apply map_length). rewrite Lk in Hp.
  assert (Hord : forall i, In i (srt keys) -> i < length all).
  { intros i Hi. apply (Permutation_in _ Hp) in Hi. apply in_seq in Hi. lia. }
  rewrite check_ord_ok by exact Hord. cbn [obind].
  destruct all as [|e0 all'] eqn:Eall.
  - assert (Hnil : srt keys = []) by (apply Permutation_nil, Permutation_sym, Hp).
    rewrite Hnil. cbn [ofold]. exists []. repeat constructor.
  - rewrite <- Eall in *. rewrite (gather_ok all e0) by exact Hord. cbn [app].
    exists (map (fun i => nth i all e0) (srt keys)). split; [ reflexivity | ].
    assert (P : Permutation (map (fun i => nth i all e0) (srt keys)) all).
    { eapply Permutation_trans; [ apply Permutation_map, Hp | ]. rewrite (map_nth_seq_id all e0). reflexivity. }
    split; [ exact P | ]. apply (sorted_strict D).
    + intros e He. apply Hm. apply (Permutation_in _ P), He.
    + apply (Permutation_NoDup (l := map rc all)); [ apply Permutation_map, Permutation_sym, P | exact Nd ].
    + rewrite map_map. replace (map (fun x => key D (nth x all e0)) (srt keys)) with (map (fun i => nth i keys 0%Z) (srt keys)); [ exact Hs | ].
      apply map_ext_in. intros i Hi. specialize (Hord i Hi). unfold keys. rewrite <- Eall.
      rewrite (nth_indep _ 0%Z (e_row V e0 * D + e_col V e0)%Z) by (rewrite map_length; exact Hord).
      rewrite (map_nth (fun e => e_row V e * D + e_col V e)%Z all e0). reflexivity.
Qed.

(* the files of a complete run *)
Definition get_elems (fs : fsys) (n : string) : list elem := match fs n with Some f => h_elems V f | None => [] end.

Lemma nth_in_range {A} (l : list A) i d : nth_error l i = Some (nth i l d) \/ length l <= i.
Proof. destruct (Nat.lt_ge_cases i (length l)); [ left; apply nth_error_nth'; assumption | right; assumption ]. Qed.

Lemma flat_map_ext_in {A C} (f g : A -> list C) l : (forall x, In x l -> f x = g x) -> flat_map f l = flat_map g l.
Proof. induction l as [|x l IH]; intros H; [ reflexivity | ]. cbn. rewrite H by (left; reflexivity). f_equal. apply IH. intros; apply H; right; assumption. Qed.
Lemma flat_map_flat_map {A C E} (f : A -> list C) (g : C -> list E) l : flat_map g (flat_map f l) = flat_map (fun x => flat_map g (f x)) l.
Proof. induction l as [|x l IH]; [ reflexivity | ]. cbn. rewrite flat_map_app, IH. reflexivity. Qed.

(* bounds [lim] at least the number of files of each thread, nothing else present below them *)
Lemma complete_files fs tfc (chunks : nat -> list (list elem)) lim evs :
  length tfc = T -> (forall t, t < T -> nth t tfc 0 <= K + 1) -> length lim = T ->
  (forall t, t < T -> length (chunks t) = nth t tfc 0 /\ concat (chunks t) = mine evs t) ->
  (forall t k c, t < T -> nth_error (chunks t) k = Some c -> fs (name_of t k) = Some (file_of sp c)) ->
  (forall t, t < T -> nth t tfc 0 <= nth t lim 0) ->
  (forall t k, t < T -> nth t tfc 0 <= k < nth t lim 0 -> fs (name_of t k) = None) ->
  (forall n, In n (file_list V name_of fs lim) -> name_fits n = true /\ fs n = Some (file_of sp (get_elems fs n))) /\
  flat_map (get_elems fs) (file_list V name_of fs lim) = flat_map (mine evs) (seq 0 T).
Proof.
  intros Lt HtK Ll Hc Hf Hle Hst.
  assert (Hfile : forall t k, t < T -> k < nth t tfc 0 -> fs (name_of t k) = Some (file_of sp (nth k (chunks t) []))).
  { intros t k Ht Hk. apply Hf; [ exact Ht | ]. destruct (Hc t Ht) as [Lc _]. apply nth_error_nth'. lia. }
  split.
  - intros n Hn. unfold file_list in Hn. rewrite Ll in Hn. apply in_flat_map in Hn. destruct Hn as (t & Ht & Hn). apply in_seq in Ht.
    apply in_flat_map in Hn. destruct Hn as (k & Hk & Hn). apply in_seq in Hk.
    destruct (fs (name_of t k)) as [f|] eqn:Ef; [ | contradiction ]. destruct Hn as [<-|[]].
    destruct (Nat.lt_ge_cases k (nth t tfc 0)) as [Hlt|Hge].
    + split; [ apply Hfit; [ lia | specialize (HtK t ltac:(lia)); lia ] | ]. unfold get_elems. rewrite (Hfile t k) by lia. reflexivity.
    + rewrite (Hst t k) in Ef by lia. discriminate.
  - unfold file_list. rewrite Ll, flat_map_flat_map. apply flat_map_ext_in. intros t Ht. apply in_seq in Ht.
    rewrite flat_map_flat_map. destruct (Hc t ltac:(lia)) as [Lc Cc]. specialize (Hle t ltac:(lia)).
    replace (nth t lim 0) with (nth t tfc 0 + (nth t lim 0 - nth t tfc 0)) by lia. rewrite seq_app, flat_map_app. cbn [plus].
    replace (flat_map _ (seq (nth t tfc 0) _)) with (@nil elem).
    2:{ symmetry. rewrite (flat_map_ext_in _ (fun _ => [])); [ induction (seq _ _); [ reflexivity | assumption ] | ].
        intros k Hk. apply in_seq in Hk. rewrite (Hst t k) by lia. reflexivity. }
    rewrite app_nil_r, <- Cc. rewrite <- (map_nth_seq_id (chunks t) []) at 1. rewrite <- flat_map_concat_map, Lc.
    apply flat_map_ext_in. intros k Hk. apply in_seq in Hk. rewrite (Hfile t k) by lia.
    cbn. rewrite app_nil_r. unfold get_elems. rewrite (Hfile t k) by lia. reflexivity.
Qed.

Lemma build_ok D (buf0 : nat -> list elem) evs :
  (forall t, length (buf0 t) = B) -> (forall ev, In ev evs -> fst ev < T) ->
  length evs <= K ->
  (forall ev, In ev evs -> in_matrix D (snd ev)) -> NoDup (map rc (map snd evs)) ->
  exists fs res tfc, build V veqb name_of sp srt D B T buf0 fs0 evs = Ok (fs, res) /\
    calculate_elements V name_of sp B T buf0 fs0 evs = Ok (fs, tfc) /\ length tfc = T /\
    (forall n, (forall t k, t < T -> k < nth t tfc 0 -> n <> name_of t k) -> fs n = fs0 n) /\
    Permutation res (map snd evs) /\ StronglySorted before res /\
    (forall lim, length lim = T -> (forall t, t < T -> nth t tfc 0 <= nth t lim 0) ->
       (forall t k, t < T -> nth t tfc 0 <= k < nth t lim 0 -> fs (name_of t k) = None) ->
       merge_files V veqb name_of sp srt D fs lim = Ok res).
Proof.
  intros Lb Hev HK Hm Nd. destruct (calculate_ok buf0 evs Lb Hev HK) as (fs & tfc & chunks & E & Lt & HtK & Hc & Hf & Fr).
  assert (Hperm : Permutation (flat_map (mine evs) (seq 0 T)) (map snd evs)) by (apply gather_perm, Hev).
  assert (G : forall lim, length lim = T -> (forall t, t < T -> nth t tfc 0 <= nth t lim 0) ->
       (forall t k, t < T -> nth t tfc 0 <= k < nth t lim 0 -> fs (name_of t k) = None) ->
       exists res, merge_files V veqb name_of sp srt D fs lim = Ok res /\ Permutation res (map snd evs) /\ StronglySorted before res).
  { intros lim Ll Hle Hst. destruct (complete_files fs tfc chunks lim evs Lt HtK Ll Hc Hf Hle Hst) as [G1 G2].
    destruct (merge_ok D fs lim (get_elems fs) G1) as (res & Em & P & S).
    - rewrite G2. intros e He. apply (Permutation_in _ Hperm) in He. apply in_map_iff in He. destruct He as (ev & <- & Hev'). apply Hm, Hev'.
    - rewrite G2. apply (Permutation_NoDup (l := map rc (map snd evs))); [ apply Permutation_map, Permutation_sym, Hperm | exact Nd ].
    - exists res. split; [ exact Em | ]. split; [ rewrite P, G2; exact Hperm | exact S ]. }
  destruct (G tfc Lt) as (res & Em & P & S); [ intros; lia | intros; lia | ].
  exists fs, res, tfc. split; [ unfold build; rewrite E; cbn [obind]; rewrite Em; reflexivity | ].
  split; [ exact E | ]. split; [ exact Lt | ]. split; [ exact Fr | ]. split; [ exact P | ]. split; [ exact S | ].
  intros lim Ll Hle Hst. destruct (G lim Ll Hle Hst) as (res' & Em' & P' & S'). rewrite Em'. f_equal.
  apply (StronglySorted_unique before); try assumption.
  - intros a Ha. unfold before in Ha. lia.
  - intros a b H1 H2. unfold before in *. lia.
  - intros x. split; intros Hx; [ apply (Permutation_in _ P') in Hx; apply (Permutation_in _ (Permutation_sym P)), Hx
                               | apply (Permutation_in _ P) in Hx; apply (Permutation_in _ (Permutation_sym P')), Hx ].
Qed.
End Threads.

(* ---------- the emitted elements ---------- *)
Section Work.
Variables (Nalpha Np Nq : nat).
Variable ovl : nat -> nat -> nat -> nat -> bool.
Variable value : nat -> nat -> nat -> nat -> nat -> nat -> V.

Definition emitted : list elem := flat_map (work V vzero Nalpha Np Nq ovl value) (seq 0 Nq).

Lemma in_emitted e : In e emitted <-> exists ap qp pp a q p, ap < Nalpha /\ qp < Nq /\ pp < Np /\ a < Nalpha /\ q < Nq /\ p < Np /\
  ovl qp pp q p = true /\ vzero (value ap qp pp a q p) = false /\
  e = (Z.of_nat (P123_idx Np Nq ap qp pp), Z.of_nat (P123_idx Np Nq a q p), value ap qp pp a q p).
Proof.
  unfold emitted, work. rewrite in_flat_map. split.
  - intros (qp & Hqp & H). apply in_flat_map in H. destruct H as (pp & Hpp & H). apply in_flat_map in H. destruct H as (ap & Hap & H).
    apply in_flat_map in H. destruct H as (a & Ha & H). apply in_flat_map in H. destruct H as (q & Hq & H). apply in_flat_map in H. destruct H as (p & Hp & H).
    rewrite in_seq in *. destruct (ovl qp pp q p) eqn:Eo; [ | contradiction ].
    destruct (vzero (value ap qp pp a q p)) eqn:Ez; [ contradiction | ]. destruct H as [<-|[]].
    exists ap, qp, pp, a, q, p. repeat split; try assumption; try lia.
  - intros (ap & qp & pp & a & q & p & Hap & Hqp & Hpp & Ha & Hq & Hp & Eo & Ez & ->).
    exists qp. split; [ apply in_seq; lia | ]. apply in_flat_map. exists pp. split; [ apply in_seq; lia | ].
    apply in_flat_map. exists ap. split; [ apply in_seq; lia | ]. apply in_flat_map. exists a. split; [ apply in_seq; lia | ].
    apply in_flat_map. exists q. split; [ apply in_seq; lia | ]. apply in_flat_map. exists p. split; [ apply in_seq; lia | ].
    rewrite Eo, Ez. left; reflexivity.
Qed.

Lemma P123_idx_lt a q p : a < Nalpha -> q < Nq -> p < Np -> P123_idx Np Nq a q p < Nalpha * Nq * Np.
Proof.
  intros. unfold P123_idx. pose proof (rm_lt Nq Np q p ltac:(assumption) ltac:(assumption)). nia.
Qed.
Lemma P123_idx_inj a q p a' q' p' : q < Nq -> p < Np -> q' < Nq -> p' < Np ->
  P123_idx Np Nq a q p = P123_idx Np Nq a' q' p' -> (a, q, p) = (a', q', p').
Proof.
  intros H1 H2 H3 H4 E. unfold P123_idx in E.
  assert (E' : a * (Nq * Np) + (q * Np + p) = a' * (Nq * Np) + (q' * Np + p')) by nia. clear E.
  apply rm_inj in E'; try (apply rm_lt; assumption). destruct E' as [-> E'].
  apply rm_inj in E'; try assumption. destruct E' as [-> ->]. reflexivity.
Qed.
Definition dec_p (z : Z) : nat := Z.to_nat z mod Np.
Definition dec_q (z : Z) : nat := (Z.to_nat z / Np) mod Nq.
Definition dec_a (z : Z) : nat := (Z.to_nat z / Np) / Nq.
Lemma dec_ok a q p : q < Nq -> p < Np ->
  dec_p (Z.of_nat (P123_idx Np Nq a q p)) = p /\ dec_q (Z.of_nat (P123_idx Np Nq a q p)) = q /\ dec_a (Z.of_nat (P123_idx Np Nq a q p)) = a.
Proof.
  intros Hq Hp. unfold dec_p, dec_q, dec_a. rewrite Nat2Z.id. unfold P123_idx.
  replace (a * Nq * Np + q * Np + p) with (p + (q + a * Nq) * Np) by nia.
  rewrite Nat.mod_add, Nat.div_add by lia. rewrite (Nat.mod_small p), (Nat.div_small p) by lia. cbn [plus].
  rewrite Nat.mod_add, Nat.div_add by lia. rewrite (Nat.mod_small q), (Nat.div_small q) by lia. auto.
Qed.

Ltac unmap H := let e := fresh "e" in let E := fresh "E" in
  repeat (apply in_flat_map in H; let x := fresh "x" in let Hx := fresh "Hx" in destruct H as (x & Hx & H); apply in_seq in Hx).

Lemma emitted_NoDup : NoDup (map rc emitted).
Proof.
  unfold emitted, work.
  assert (Leaf : forall ap qp pp a q p e, qp < Nq -> pp < Np -> q < Nq -> p < Np ->
     In e (if ovl qp pp q p then if vzero (value ap qp pp a q p) then [] else
        [(Z.of_nat (P123_idx Np Nq ap qp pp), Z.of_nat (P123_idx Np Nq a q p), value ap qp pp a q p)] else []) ->
     dec_p (fst (rc e)) = pp /\ dec_q (fst (rc e)) = qp /\ dec_a (fst (rc e)) = ap /\
     dec_p (snd (rc e)) = p /\ dec_q (snd (rc e)) = q /\ dec_a (snd (rc e)) = a).
  { intros ap qp pp a q p e Hqp Hpp Hq Hp H. destruct (ovl qp pp q p); [ | contradiction ]. destruct (vzero _); [ contradiction | ].
    destruct H as [<-|[]]. unfold rc, e_row, e_col. cbn [fst snd].
    destruct (dec_ok ap qp pp Hqp Hpp) as (-> & -> & ->). destruct (dec_ok a q p Hq Hp) as (-> & -> & ->). repeat split. }
  apply (NoDup_map_flat_map rc _ (fun z => dec_q (fst z))); [ apply seq_NoDup | intros qp Hqp | intros qp e Hqp H; apply in_seq in Hqp ].
  2:{ unmap H. eapply Leaf in H; try lia; tauto. }
  apply in_seq in Hqp.
  apply (NoDup_map_flat_map rc _ (fun z => dec_p (fst z))); [ apply seq_NoDup | intros pp Hpp | intros pp e Hpp H; apply in_seq in Hpp ].
  2:{ unmap H. eapply Leaf in H; try lia; tauto. }
  apply in_seq in Hpp.
  apply (NoDup_map_flat_map rc _ (fun z => dec_a (fst z))); [ apply seq_NoDup | intros ap Hap | intros ap e Hap H; apply in_seq in Hap ].
  2:{ unmap H. eapply Leaf in H; try lia; tauto. }
  apply in_seq in Hap.
  apply (NoDup_map_flat_map rc _ (fun z => dec_a (snd z))); [ apply seq_NoDup | intros a Ha | intros a e Ha H; apply in_seq in Ha ].
  2:{ unmap H. eapply Leaf in H; try lia; tauto. }
  apply in_seq in Ha.
  apply (NoDup_map_flat_map rc _ (fun z => dec_q (snd z))); [ apply seq_NoDup | intros q Hq | intros q e Hq H; apply in_seq in Hq ].
  2:{ unmap H. eapply Leaf in H; try lia; tauto. }
  apply in_seq in Hq.
  apply (NoDup_map_flat_map rc _ (fun z => dec_p (snd z))); [ apply seq_NoDup | intros p Hp | intros p e Hp H; apply in_seq in Hp ].
  2:{ eapply Leaf in H; try lia; tauto. }
  destruct (ovl qp pp q p); [ | constructor ]. destruct (vzero _); [ constructor | ]. repeat constructor. intros [].
Qed.
Lemma emitted_in_matrix e : In e emitted -> in_matrix (Z.of_nat (Nalpha * Nq * Np)) e.
Proof.
  intros H. apply in_emitted in H. destruct H as (ap & qp & pp & a & q & p & Hap & Hqp & Hpp & Ha & Hq & Hp & _ & _ & ->).
  unfold in_matrix, e_row, e_col. cbn [fst snd].
  pose proof (P123_idx_lt ap qp pp Hap Hqp Hpp). pose proof (P123_idx_lt a q p Ha Hq Hp). lia.
Qed.
End Work.
End P.
