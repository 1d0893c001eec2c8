From Coq Require Import String FinFun.
From Verif Require Import Common ArrayLib NameModel PWModel SwpModel ResolventModel OutputModel OutputSpec OutputProofs.
Open Scope list_scope.
Open Scope nat_scope.

(* ---------- maps ---------- *)
Lemma fget_fset m k v k' : fget (fset m k v) k' = if k =? k' then Some v else fget m k'.
Proof.
  unfold fget, fset. cbn [find fst]. destruct (Nat.eqb_spec k k') as [->|Hn]; [ reflexivity | ].
  induction m as [|[a b] m IH]; [ reflexivity | ]. cbn [filter fst]. destruct (Nat.eqb_spec a k) as [->|Hak]; cbn [negb].
  - cbn [find fst]. destruct (Nat.eqb_spec k k'); [ lia | exact IH ].
  - cbn [find fst]. destruct (Nat.eqb_spec a k'); [ reflexivity | exact IH ].
Qed.
Lemma longest_ge m k n : fget m k = Some n -> n <= longest m.
Proof.
  unfold fget, longest. intros H. destruct (find (fun e => fst e =? k) m) as [[a b]|] eqn:E; [ | discriminate ]. injection H as <-.
  apply find_some in E. destruct E as [Hin _]. cbn [snd].
  assert (G : forall (l : list (nat * nat)) acc, acc <= fold_left (fun m e => if m <? snd e then snd e else m) l acc /\
     forall e, In e l -> snd e <= fold_left (fun m e => if m <? snd e then snd e else m) l acc).
  { clear. induction l as [|x l IH]; intros acc; cbn [fold_left]; [ split; [ lia | intros e [] ] | ].
    destruct (IH (if acc <? snd x then snd x else acc)) as [H1 H2]. destruct (Nat.ltb_spec acc (snd x)); (split; [ lia | ]);
    intros e [<-|He]; try lia; apply H2, He. }
  exact (proj2 (G m 0) (a, b) Hin).
Qed.

Section B.
Context {V : Type}.
Variable states : list pw.
Variable deut : list nat.
Variable cells : list (Z * Z * Z).
Variable ends : list nat.
Variable nq : nat.
Let Na := length states.
Let nd := length deut.
Hypothesis Hnodup : NoDup deut.
Hypothesis Hdeut : forall k, In k deut -> k < Na.
Hypothesis Hcells : forall t, In t cells -> (0 <= fst (fst t) < Z.of_nat Na)%Z.
Hypothesis Hends : per_energy nq (length cells) ends.

Variable s0 : pw.
Definition arow (x : nat * nat) : nat := nth (fst x) deut 0.
Definition acol (x : nat * nat) : nat := Z.to_nat (fst (fst (nth (snd x) cells (0, 0, 0)%Z))).
Definition akey (x : nat * nat) : nat := acol x * Na + arow x.
Definition rkey (x : nat * nat) : nat := snd x * Na + arow x.
Definition label (x : nat * nat) : string := bu_label (nth (acol x) states s0) (nth (arow x) states s0).
Definition valid (x : nat * nat) : Prop := fst x < nd /\ snd x < length cells.
Lemma arow_lt x : valid x -> arow x < Na.
Proof. intros [H _]. apply Hdeut, nth_In, H. Qed.
Lemma acol_lt x : valid x -> acol x < Na.
Proof. intros [_ H]. unfold acol. specialize (Hcells (nth (snd x) cells (0, 0, 0)%Z) (nth_In _ _ H)). lia. Qed.
Lemma rkey_inj x y : valid x -> valid y -> rkey x = rkey y -> x = y.
Proof.
  intros Hx Hy E. apply rm_inj in E; [ | apply arow_lt, Hx | apply arow_lt, Hy ]. destruct E as [E1 E2]. destruct x as [d b], y as [d' b'].
  cbn in E1. subst b'. f_equal. unfold arow in E2. cbn [fst] in E2. destruct Hx as [Hx _], Hy as [Hy _]. apply (proj1 (NoDup_nth deut 0) Hnodup); assumption.
Qed.

(* first pass: columns *)
Definition Cols (D : list (nat * nat)) (p : pass1) : Prop :=
  (forall x, In x D -> exists c, fget (p_alpha p) (akey x) = Some c) /\
  (forall k c, fget (p_alpha p) k = Some c -> c < p_count p /\ exists x, In x D /\ akey x = k /\ firstn 5 (skipn (5 * c + 5) (p_head p)) = bu_headers_chn (label x)) /\
  (forall k k' c, fget (p_alpha p) k = Some c -> fget (p_alpha p) k' = Some c -> k = k') /\
  length (p_head p) = 5 + 5 * p_count p /\ firstn 5 (p_head p) = bu_headers0.
Definition row (p : pass1) (x : nat * nat) : nat := fget0 (p_row p) (rkey x).
(* rows inside one energy *)
Definition Rows (base : nat) (D : list (nat * nat)) (p : pass1) (rn : fmap) : Prop :=
  (forall k, fget rn k = None -> forall x, In x D -> akey x <> k) /\
  (forall k n, fget rn k = Some n -> base < n /\ forall x, In x D -> akey x = k -> base <= row p x < n) /\
  (forall x y, In x D -> In y D -> akey x = akey y -> row p x = row p y -> x = y).

Lemma reads x : valid x -> aread deut (fst x) = Ok (arow x) /\ aread states (arow x) = Ok (nth (arow x) states s0) /\
  aread cells (snd x) = Ok (nth (snd x) cells (0, 0, 0)%Z) /\ zread states (fst (fst (nth (snd x) cells (0, 0, 0)%Z))) = Ok (nth (acol x) states s0).
Proof.
  intros H. pose proof (arow_lt x H). pose proof (acol_lt x H). destruct H as [Hd Hb].
  split; [ apply aread_some, nth_error_nth'; exact Hd | ]. split; [ apply aread_some, nth_error_nth'; assumption | ].
  split; [ apply aread_some, nth_error_nth'; exact Hb | ]. unfold zread. pose proof (Hcells _ (nth_In cells (0, 0, 0)%Z Hb)).
  destruct (Z.ltb_spec (fst (fst (nth (snd x) cells (0, 0, 0)%Z))) 0); [ lia | ]. apply aread_some, nth_error_nth'. assumption.
Qed.

Lemma firstn_app_l {A} (a b : list A) n : n <= length a -> firstn n (a ++ b) = firstn n a.
Proof. intros H. rewrite firstn_app. replace (n - length a) with 0 by lia. cbn. apply app_nil_r. Qed.
Lemma skipn_app_l {A} (a b : list A) n : n <= length a -> skipn n (a ++ b) = skipn n a ++ b.
Proof. intros H. rewrite skipn_app. replace (n - length a) with 0 by lia. reflexivity. Qed.

Lemma item_step base All D p rn x : Cols All p -> Rows base D p rn -> valid x -> (forall y, In y D -> valid y) -> ~ In x D ->
  exists p' rn', pass1_item states deut cells base (p, rn) x = Ok (p', rn') /\ Cols (All ++ [x]) p' /\ Rows base (D ++ [x]) p' rn' /\
    (exists n, fget rn' (akey x) = Some n) /\
    (forall y, valid y -> y <> x -> row p' y = row p y).
Proof.
  intros (C1 & C2 & C3 & C4 & C5) (R1 & R2 & R3) Hv HD Hx. destruct (reads x Hv) as (E1 & E2 & E3 & E4). destruct x as [d bu].
  unfold pass1_item. cbn [fst snd] in *. rewrite E1. cbn [obind]. rewrite E2. cbn [obind]. rewrite E3. cbn [obind]. rewrite E4. cbn [obind].
  change (Z.to_nat (fst (fst (nth bu cells (0, 0, 0)%Z))) * length states + arow (d, bu)) with (akey (d, bu)).
  change (bu * length states + arow (d, bu)) with (rkey (d, bu)). change (bu_label (nth (acol (d, bu)) states s0) (nth (arow (d, bu)) states s0)) with (label (d, bu)).
  set (x := (d, bu)) in *. set (k := akey x) in *.
  set (p1 := match fget (p_alpha p) k with Some _ => p
             | None => mkp1 (fset (p_alpha p) k (p_count p)) (p_count p + 1) (p_row p) (p_head p ++ bu_headers_chn (label x)) end).
  assert (HC : Cols (All ++ [x]) p1 /\ p_row p1 = p_row p).
  { unfold p1. destruct (fget (p_alpha p) k) as [c|] eqn:Ek.
    - split; [ | reflexivity ]. split; [ | split; [ | split; [ exact C3 | split; [ exact C4 | exact C5 ] ] ] ].
      + intros y Hy. apply in_app_iff in Hy. destruct Hy as [Hy|[<-|[]]]; [ apply C1, Hy | exists c; exact Ek ].
      + intros k' c' H. destruct (C2 k' c' H) as (L & y & Hy & H'). split; [ exact L | ]. exists y. split; [ apply in_app_iff; left; exact Hy | exact H' ].
    - split; [ | reflexivity ]. unfold Cols. cbn [p_alpha p_count p_row p_head]. split; [ | split; [ | split; [ | split ] ] ].
      + intros y Hy. rewrite fget_fset. destruct (Nat.eqb_spec k (akey y)) as [E|E]; [ eexists; reflexivity | ].
        apply in_app_iff in Hy. destruct Hy as [Hy|[<-|[]]]; [ apply C1, Hy | contradiction ].
      + intros k' c'. rewrite fget_fset. destruct (Nat.eqb_spec k k') as [<-|E].
        * intros [= <-]. split; [ lia | ]. exists x. split; [ apply in_app_iff; right; left; reflexivity | split; [ reflexivity | ] ].
          replace (5 * p_count p + 5) with (length (p_head p)) by lia. rewrite skipn_app, skipn_all, Nat.sub_diag. reflexivity.
        * intros H. destruct (C2 k' c' H) as (L & y & Hy & Ey & F). split; [ lia | ]. exists y. split; [ apply in_app_iff; left; exact Hy | ]. split; [ exact Ey | ].
          rewrite skipn_app_l by lia. rewrite firstn_app_l by (rewrite skipn_length; lia). exact F.
      + intros k1 k2 c. rewrite !fget_fset. destruct (Nat.eqb_spec k k1) as [<-|E1'], (Nat.eqb_spec k k2) as [<-|E2']; [ reflexivity | | | apply C3 ].
        * intros [= <-] H. apply C2 in H. lia.
        * intros H [= <-]. apply C2 in H. lia.
      + rewrite app_length. cbn [bu_headers_chn length]. lia.
      + rewrite firstn_app_l by lia. exact C5. }
  destruct HC as [HC HR]. 
  assert (Hrow : forall v y, valid y -> y <> x -> fget0 (fset (p_row p1) (rkey x) v) (rkey y) = row p y).
  { intros v y Hy Hne. unfold fget0. rewrite fget_fset, HR. destruct (Nat.eqb_spec (rkey x) (rkey y)) as [E|E]; [ apply rkey_inj in E; [ congruence | exact Hv | exact Hy ] | reflexivity ]. }
  assert (Hrx : forall v, fget0 (fset (p_row p1) (rkey x) v) (rkey x) = v).
  { intros v. unfold fget0. rewrite fget_fset, Nat.eqb_refl. reflexivity. }
  assert (Hne : forall y, In y D -> y <> x) by (intros y Hy ->; contradiction).
  destruct (fget rn k) as [n|] eqn:En.
  - destruct (R2 k n En) as [Hn Hrn]. do 2 eexists. split; [ reflexivity | ]. split; [ exact HC | ]. split; [ | split ].
    + split; [ | split ].
      * intros k'. rewrite fget_fset. destruct (Nat.eqb_spec k k') as [E|E]; [ discriminate | ]. intros H y Hy. apply in_app_iff in Hy.
        destruct Hy as [Hy|[<-|[]]]; [ apply (R1 k' H y Hy) | exact E ].
      * intros k' n'. rewrite fget_fset. unfold row. cbn [p_row]. destruct (Nat.eqb_spec k k') as [<-|E].
        -- intros [= <-]. split; [ lia | ]. intros y Hy Ey. apply in_app_iff in Hy. destruct Hy as [Hy|[<-|[]]].
           ++ rewrite Hrow by (auto). specialize (Hrn y Hy Ey). lia.
           ++ rewrite Hrx. lia.
        -- intros H. destruct (R2 k' n' H) as [Hb Hr]. split; [ exact Hb | ]. intros y Hy Ey. apply in_app_iff in Hy. destruct Hy as [Hy|[<-|[]]]; [ | contradiction ].
           rewrite Hrow by auto. apply Hr; assumption.
      * unfold row. cbn [p_row]. intros y z Hy Hz Ek Er. apply in_app_iff in Hy, Hz.
        destruct Hy as [Hy|[<-|[]]], Hz as [Hz|[<-|[]]]; [ rewrite !Hrow in Er by auto; apply (R3 y z); assumption | | | reflexivity ].
        -- rewrite Hrx, Hrow in Er by auto. specialize (Hrn y Hy Ek). lia.
        -- rewrite Hrx, Hrow in Er by auto. specialize (Hrn z Hz (eq_sym Ek)). lia.
    + exists (n + 1). fold k. rewrite fget_fset, Nat.eqb_refl. reflexivity.
    + intros y Hy Hyx. apply Hrow; assumption.
  - do 2 eexists. split; [ reflexivity | ]. split; [ exact HC | ]. split; [ | split ].
    + split; [ | split ].
      * intros k'. rewrite fget_fset. destruct (Nat.eqb_spec k k') as [E|E]; [ discriminate | ]. intros H y Hy. apply in_app_iff in Hy.
        destruct Hy as [Hy|[<-|[]]]; [ apply (R1 k' H y Hy) | exact E ].
      * intros k' n'. rewrite fget_fset. unfold row. cbn [p_row]. destruct (Nat.eqb_spec k k') as [<-|E].
        -- intros [= <-]. split; [ lia | ]. intros y Hy Ey. apply in_app_iff in Hy. destruct Hy as [Hy|[<-|[]]].
           ++ destruct (R1 k En y Hy Ey).
           ++ rewrite Hrx. lia.
        -- intros H. destruct (R2 k' n' H) as [Hb Hr]. split; [ exact Hb | ]. intros y Hy Ey. apply in_app_iff in Hy. destruct Hy as [Hy|[<-|[]]]; [ | contradiction ].
           rewrite Hrow by auto. apply Hr; assumption.
      * unfold row. cbn [p_row]. intros y z Hy Hz Ek Er. apply in_app_iff in Hy, Hz.
        destruct Hy as [Hy|[<-|[]]], Hz as [Hz|[<-|[]]]; [ rewrite !Hrow in Er by auto; apply (R3 y z); assumption | | | reflexivity ].
        -- destruct (R1 k En y Hy Ek).
        -- destruct (R1 k En z Hz (eq_sym Ek)).
    + exists (base + 1). fold k. rewrite fget_fset, Nat.eqb_refl. reflexivity.
    + intros y Hy Hyx. apply Hrow; assumption.
Qed.

Definition items (q : nat) : list (nat * nat) := bu_items deut (nth q ends 0) (nth (q + 1) ends 0).
Lemma in_bu_items b e x : In x (bu_items deut b e) <-> fst x < nd /\ b <= snd x < e.
Proof.
  unfold bu_items. rewrite in_flat_map. destruct x as [d bu]. cbn [fst snd]. split.
  - intros (d' & Hd & H). apply in_map_iff in H. destruct H as (bu' & [= -> ->] & Hb). apply in_seq in Hd, Hb. unfold nd. lia.
  - intros [Hd Hb]. exists d. split; [ apply in_seq; unfold nd in Hd; lia | ]. apply in_map_iff. exists bu. split; [ reflexivity | apply in_seq; lia ].
Qed.
Lemma NoDup_bu_items b e : NoDup (bu_items deut b e).
Proof.
  unfold bu_items. apply NoDup_flat_map; [ apply seq_NoDup | | ].
  - intros d _. apply FinFun.Injective_map_NoDup; [ intros x y [= ->]; reflexivity | apply seq_NoDup ].
  - intros d d' z _ _ Hz Hz'. apply in_map_iff in Hz, Hz'. destruct Hz as (? & <- & _), Hz' as (? & [= ? ?] & _). congruence.
Qed.
Lemma ends_mono q q' : q <= q' -> q' <= nq -> nth q ends 0 <= nth q' ends 0.
Proof.
  intros H. induction H as [|q' H IH]; intros Hq; [ lia | ]. destruct Hends as (_ & _ & _ & Hm & _). specialize (Hm q' ltac:(lia)). rewrite Nat.add_1_r in Hm. lia.
Qed.
Lemma ends_le q : q <= nq -> nth q ends 0 <= length cells.
Proof. intros H. pose proof (ends_mono q nq H (le_n _)). destruct Hends as (_ & _ & E & _). lia. Qed.
Lemma in_items q x : q < nq -> In x (items q) -> valid x.
Proof. intros Hq H. apply in_bu_items in H. pose proof (ends_le (q + 1) ltac:(lia)). split; lia. Qed.
Lemma items_disjoint q q' x : q < nq -> q' < nq -> In x (items q) -> In x (items q') -> q = q'.
Proof.
  intros Hq Hq' H H'. apply in_bu_items in H, H'. destruct (Nat.lt_total q q') as [L|[E|L]]; [ | exact E | ].
  - pose proof (ends_mono (q + 1) q' ltac:(lia) ltac:(lia)). lia.
  - pose proof (ends_mono (q' + 1) q ltac:(lia) ltac:(lia)). lia.
Qed.

Lemma q_step base All p0 b e : Cols All p0 -> e <= length cells ->
  exists p rn, ofold (pass1_item states deut cells base) (bu_items deut b e) (p0, []) = Ok (p, rn) /\ Cols (All ++ bu_items deut b e) p /\
    Rows base (bu_items deut b e) p rn /\ (bu_items deut b e = [] -> rn = []) /\ (bu_items deut b e <> [] -> exists k n, fget rn k = Some n) /\
    (forall y, valid y -> ~ In y (bu_items deut b e) -> row p y = row p0 y).
Proof.
  intros HC He.
  destruct (ofold_inv (fun d (st : pass1 * fmap) => Cols (All ++ d) (fst st) /\ Rows base d (fst st) (snd st) /\ (d = [] -> snd st = []) /\
      (d <> [] -> exists k n, fget (snd st) k = Some n) /\ (forall y, valid y -> ~ In y d -> row (fst st) y = row p0 y))
    (pass1_item states deut cells base) (bu_items deut b e) (p0, [])) as ([p rn] & E & H).
  - cbn [fst snd]. rewrite app_nil_r. split; [ exact HC | ]. split; [ | split; [ reflexivity | split; [ congruence | reflexivity ] ] ].
    split; [ intros ? ? ? [] | split; [ discriminate | intros ? ? [] ] ].
  - intros d x r [p rn] Hl (H1 & H2 & H3 & H4 & H5). cbn [fst snd] in *.
    assert (HV : forall y, In y (bu_items deut b e) -> valid y) by (intros y Hy; apply in_bu_items in Hy; split; lia).
    assert (Hx : In x (bu_items deut b e)) by (rewrite Hl; apply in_app_iff; right; left; reflexivity).
    assert (HD : forall y, In y d -> valid y) by (intros y Hy; apply HV; rewrite Hl; apply in_app_iff; left; exact Hy).
    assert (Hnx : ~ In x d). { pose proof (NoDup_bu_items b e) as ND. rewrite Hl in ND. apply NoDup_remove_2 in ND. intros Hin. apply ND, in_app_iff. left; exact Hin. }
    destruct (item_step base (All ++ d) d p rn x H1 H2 (HV x Hx) HD Hnx) as (p' & rn' & E & HC' & HR' & (n & Hn) & Hrow).
    exists (p', rn'). split; [ exact E | ]. cbn [fst snd]. rewrite app_assoc. split; [ exact HC' | ]. split; [ exact HR' | ]. split; [ destruct d; discriminate | ].
    split; [ intros _; exists (akey x), n; exact Hn | ]. intros y Hy Hin. rewrite Hrow; [ apply H5; [ exact Hy | ] | exact Hy | ];
    [ intros H'; apply Hin, in_app_iff; left; exact H' | intros ->; apply Hin, in_app_iff; right; left; reflexivity ].
  - exists p, rn. split; [ exact E | ]. cbn [fst snd] in H. tauto.
Qed.

Definition all_items (n : nat) : list (nat * nat) := flat_map items (seq 0 n).
Lemma in_all_items n x : In x (all_items n) <-> exists q, q < n /\ In x (items q).
Proof. unfold all_items. rewrite in_flat_map. split; intros (q & H1 & H2); exists q; rewrite in_seq in *; split; try lia; assumption. Qed.

Definition P1 (n : nat) (p : pass1) (nrv : list nat) : Prop :=
  Cols (all_items n) p /\ length nrv = n + 1 /\ nth 0 nrv 0 = 0 /\
  (forall q, q < n -> nth q nrv 0 <= nth (q + 1) nrv 0) /\
  (forall q x, q < n -> In x (items q) -> nth q nrv 0 <= row p x < nth (q + 1) nrv 0) /\
  (forall q x y, q < n -> In x (items q) -> In y (items q) -> akey x = akey y -> row p x = row p y -> x = y) /\
  (0 < nth n nrv 0 -> exists q, q < n /\ items q <> []).

Lemma nonempty_up q q' : q <= q' -> q' < nq -> items q <> [] -> items q' <> [].
Proof.
  intros H Hq' Hne. assert (Hx : exists x, In x (items q)) by (destruct (items q) as [|x l]; [ congruence | exists x; left; reflexivity ]).
  destruct Hx as ((d & bu) & Hx). apply in_bu_items in Hx. cbn [fst snd] in Hx. destruct Hends as (_ & _ & _ & _ & Hp).
  specialize (Hp q q' H Hq' ltac:(lia)). intros Hn.
  assert (In (d, nth q' ends 0) (items q')) by (apply in_bu_items; cbn [fst snd]; lia). rewrite Hn in H0. destruct H0.
Qed.

Lemma pass1_main n : n <= nq -> exists p nrv, ofold (pass1_q states deut cells ends) (seq 0 n) (mkp1 [] 0 [] bu_headers0, [0]) = Ok (p, nrv) /\ P1 n p nrv.
Proof.
  induction n as [|n IH]; intros Hn.
  - exists (mkp1 [] 0 [] bu_headers0), [0]. split; [ reflexivity | ]. split; [ | split; [ reflexivity | split; [ reflexivity | ] ] ].
    + split; [ intros x [] | split; [ discriminate | split; [ discriminate | split; reflexivity ] ] ].
    + repeat split; intros; cbn in *; lia.
  - destruct (IH ltac:(lia)) as (p & nrv & E & HC & HL & H0 & HM & HR & HI & HP). rewrite seq_S, ofold_app, E. cbn [obind ofold Nat.add].
    unfold pass1_q at 1. destruct Hends as (EL & _).
    rewrite (aread_some ends n (nth n ends 0)) by (apply nth_error_nth'; lia). cbn [obind].
    rewrite (aread_some ends (n + 1) (nth (n + 1) ends 0)) by (apply nth_error_nth'; lia). cbn [obind].
    rewrite (aread_some nrv n (nth n nrv 0)) by (apply nth_error_nth'; lia). cbn [obind].
    destruct (q_step (nth n nrv 0) (all_items n) p (nth n ends 0) (nth (n + 1) ends 0) HC (ends_le (n + 1) ltac:(lia))) as (p' & rn & E' & HC' & (R1 & R2 & R3) & Rn & Rne & Rold).
    rewrite E'. cbn [obind]. exists p', (nrv ++ [longest rn]). split; [ reflexivity | ].
    change (bu_items deut (nth n ends 0) (nth (n + 1) ends 0)) with (items n) in *.
    assert (Hlast : nth (n + 1) (nrv ++ [longest rn]) 0 = longest rn) by (rewrite app_nth2 by lia; replace (n + 1 - length nrv) with 0 by lia; reflexivity).
    assert (Hold : forall q, q < n + 1 -> nth q (nrv ++ [longest rn]) 0 = nth q nrv 0) by (intros q Hq; apply app_nth1; lia).
    assert (Hup : forall x, In x (items n) -> row p' x < longest rn).
    { intros x Hx. destruct (fget rn (akey x)) as [m|] eqn:Em; [ | destruct (R1 _ Em x Hx eq_refl) ]. apply R2 in Em as Em'. destruct Em' as [_ Hb].
      specialize (Hb x Hx eq_refl). apply longest_ge in Em. lia. }
    assert (Hlow : forall x, In x (items n) -> nth n nrv 0 <= row p' x).
    { intros x Hx. destruct (fget rn (akey x)) as [m|] eqn:Em; [ | destruct (R1 _ Em x Hx eq_refl) ]. apply R2 in Em as Em'. destruct Em' as [_ Hb].
      apply (Hb x Hx eq_refl). }
    assert (Hmono : nth n nrv 0 <= longest rn).
    { destruct (items n) as [|x l] eqn:Ei.
      - destruct (nth n nrv 0) as [|m] eqn:Em; [ lia | ]. destruct HP as (q & Hq & Hne); [ lia | ]. destruct (nonempty_up q n ltac:(lia) ltac:(lia) Hne Ei).
      - specialize (Hup x (or_introl eq_refl)). specialize (Hlow x (or_introl eq_refl)). lia. }
    assert (Hkeep : forall q x, q < n -> In x (items q) -> row p' x = row p x).
    { intros q x Hq Hx. apply Rold; [ apply (in_items q); [ lia | exact Hx ] | ]. intros Hx'. pose proof (items_disjoint q n x ltac:(lia) ltac:(lia) Hx Hx'). lia. }
    split; [ | split; [ | split; [ | split; [ | split; [ | split ] ] ] ] ].
    + unfold all_items. rewrite seq_S, flat_map_app. cbn [flat_map Nat.add]. rewrite app_nil_r. exact HC'.
    + rewrite app_length. cbn. lia.
    + rewrite Hold by lia. exact H0.
    + intros q Hq. destruct (Nat.eq_dec q n) as [->|Hne]; [ rewrite Hlast, Hold by lia; exact Hmono | ]. rewrite !Hold by lia. apply HM. lia.
    + intros q x Hq Hx. destruct (Nat.eq_dec q n) as [->|Hne].
      * rewrite Hlast, Hold by lia. split; [ apply Hlow, Hx | apply Hup, Hx ].
      * rewrite !Hold by lia. rewrite (Hkeep q x) by (try lia; assumption). apply HR; [ lia | exact Hx ].
    + intros q x y Hq Hx Hy. destruct (Nat.eq_dec q n) as [->|Hne]; [ apply R3; assumption | ].
      rewrite (Hkeep q x), (Hkeep q y) by (try lia; assumption). apply (HI q); [ lia | assumption | assumption ].
    + replace (S n) with (n + 1) by lia. rewrite Hlast. intros Hpos. exists n. split; [ lia | ]. intros Ei. rewrite (Rn Ei) in Hpos. cbn in Hpos. lia.
Qed.

(* ---------- second pass ---------- *)
Variable zero : V.
Variable pmom : V -> V.
Variables U T E qcm : list V.
Variable q_com_idx : list nat.
Variables qWP e_unco e_coup : list V.
Variables tensor iso : bool.
Variable Np : nat.
Hypothesis HU : nd * length cells <= length U.
Hypothesis HT : length T = nq.
Hypothesis HE : length E = nq.
Hypothesis Hk : length qcm = nq.
Hypothesis Hqi : length q_com_idx = nq.
Hypothesis Hqi2 : forall i, In i q_com_idx -> i + 1 < length qWP.
Variable bins : Z * Z * Z -> V * V * V * V.
Hypothesis Hbins : forall t, In t cells -> let '(ql, qu, el, eu) := bins t in bins_of states qWP e_unco e_coup tensor iso Np t ql qu el eu.

Variables (p : pass1) (nrv : list nat).
Hypothesis HP : P1 nq p nrv.
Let cols := length (p_head p).
Definition colf (x : nat * nat) : nat := 5 * fget0 (p_alpha p) (akey x) + 5.

Definition cell_of (x : nat * nat) := nth (snd x) cells (0, 0, 0)%Z.
Definition five (x : nat * nat) (j : nat) : V :=
  let '(ql, qu, el, eu) := bins (cell_of x) in
  match j with 0 => nth (fst x * length cells + snd x) U zero | 1 => ql | 2 => qu | 3 => pmom el | _ => pmom eu end.
Definition first_five (q j : nat) : V :=
  match j with 0 => nth q T zero | 1 => nth q E zero | 2 => nth q qcm zero | 3 => nth (nth q q_com_idx 0) qWP zero | _ => nth (nth q q_com_idx 0 + 1) qWP zero end.
Definition item_w (x : nat * nat) : list (nat * V) := map (fun j => (row p x * cols + (colf x + j), five x j)) (seq 0 5).
Definition row_w (q r : nat) : list (nat * V) := map (fun j => (r * cols + j, first_five q j)) (seq 0 5).
Definition q_w (q : nat) : list (nat * V) :=
  flat_map (row_w q) (seq (nth q nrv 0) (nth (q + 1) nrv 0 - nth q nrv 0)) ++ flat_map item_w (items q).

Lemma item_writes_ok x : valid x -> item_writes V states deut cells pmom U qWP e_unco e_coup tensor iso Np p cols x = Ok (item_w x).
Proof.
  intros Hv. destruct (reads x Hv) as (E1 & _ & E3 & _). pose proof Hv as [Hd Hb]. pose proof (Hbins _ (nth_In cells (0, 0, 0)%Z Hb)) as B.
  unfold item_w, five, cell_of. destruct x as [d bu]. cbn [fst snd] in *. destruct (bins (nth bu cells (0, 0, 0)%Z)) as [[[ql qu] el] eu] eqn:Eb.
  unfold item_writes. rewrite E1. cbn [obind]. rewrite E3. cbn [obind]. destruct (nth bu cells (0, 0, 0)%Z) as [[a iq] ip] eqn:Ec.
  destruct B as (s & coup & off & B1 & B2 & B3 & B4 & B5 & B6). rewrite B1. cbn [obind]. rewrite B2. cbn [obind]. rewrite B3. cbn [obind]. rewrite B4. cbn [obind].
  rewrite B5. cbn [obind]. rewrite B6. cbn [obind].
  rewrite (aread_some U _ (nth (d * length cells + bu) U zero)) by (apply nth_error_nth'; eapply Nat.lt_le_trans; [ apply rm_lt; eassumption | exact HU ]). cbn [obind].
  unfold colf, akey, acol, row, rkey, cell_of. cbn [fst snd seq map]. rewrite Ec. cbn [fst]. fold Na. rewrite !Nat.add_assoc. reflexivity.
Qed.
Lemma q_writes_ok q : q < nq -> q_writes V states deut cells ends pmom U T E qcm q_com_idx qWP e_unco e_coup tensor iso Np p nrv cols q = Ok (q_w q).
Proof.
  intros Hq. destruct Hends as (EL & _). destruct HP as (_ & HL & _). unfold q_writes.
  assert (Hi : nth q q_com_idx 0 + 1 < length qWP) by (apply Hqi2, nth_In; lia).
  rewrite (aread_some q_com_idx q (nth q q_com_idx 0)) by (apply nth_error_nth'; lia). cbn [obind].
  rewrite (aread_some ends q (nth q ends 0)) by (apply nth_error_nth'; lia). cbn [obind].
  rewrite (aread_some ends (q + 1) (nth (q + 1) ends 0)) by (apply nth_error_nth'; lia). cbn [obind].
  rewrite (aread_some T q (nth q T zero)) by (apply nth_error_nth'; lia). cbn [obind].
  rewrite (aread_some E q (nth q E zero)) by (apply nth_error_nth'; lia). cbn [obind].
  rewrite (aread_some qcm q (nth q qcm zero)) by (apply nth_error_nth'; lia). cbn [obind].
  rewrite (aread_some qWP _ (nth (nth q q_com_idx 0) qWP zero)) by (apply nth_error_nth'; lia). cbn [obind].
  rewrite (aread_some qWP _ (nth (nth q q_com_idx 0 + 1) qWP zero)) by (apply nth_error_nth'; lia). cbn [obind].
  rewrite (aread_some nrv q (nth q nrv 0)) by (apply nth_error_nth'; lia). cbn [obind].
  rewrite (aread_some nrv (q + 1) (nth (q + 1) nrv 0)) by (apply nth_error_nth'; lia). cbn [obind].
  rewrite (ofold_append (item_writes V states deut cells pmom U qWP e_unco e_coup tensor iso Np p cols) item_w);
    [ | intros x Hx; apply item_writes_ok, (in_items q); [ exact Hq | exact Hx ] ]. reflexivity.
Qed.

Lemma nrv_mono q q' : q <= q' -> q' <= nq -> nth q nrv 0 <= nth q' nrv 0.
Proof. intros H. destruct HP as (_ & _ & _ & HM & _). induction H as [|q' H IH]; intros Hq; [ lia | ]. specialize (HM q' ltac:(lia)). rewrite Nat.add_1_r in HM. lia. Qed.
Lemma row_q q q' r : q < nq -> q' < nq -> nth q nrv 0 <= r < nth (q + 1) nrv 0 -> nth q' nrv 0 <= r < nth (q' + 1) nrv 0 -> q = q'.
Proof.
  intros Hq Hq' H H'. destruct (Nat.lt_total q q') as [L|[Eq|L]]; [ | exact Eq | ].
  - pose proof (nrv_mono (q + 1) q' ltac:(lia) ltac:(lia)). lia.
  - pose proof (nrv_mono (q' + 1) q ltac:(lia) ltac:(lia)). lia.
Qed.
Lemma col_bound q x : q < nq -> In x (items q) -> colf x + 5 <= cols /\ exists c, fget (p_alpha p) (akey x) = Some c /\ colf x = 5 * c + 5.
Proof.
  intros Hq Hx. destruct HP as ((C1 & C2 & _ & C4 & _) & _). destruct (C1 x) as (c & Hc); [ apply in_all_items; exists q; split; assumption | ].
  unfold colf, fget0. rewrite Hc. apply C2 in Hc as [Hlt _]. unfold cols. split; [ lia | exists c; split; reflexivity ].
Qed.

Lemma in_q_w w q : q < nq -> In w (q_w q) <->
  (exists r j, nth q nrv 0 <= r < nth (q + 1) nrv 0 /\ j < 5 /\ w = (r * cols + j, first_five q j)) \/
  (exists x j, In x (items q) /\ j < 5 /\ w = (row p x * cols + (colf x + j), five x j)).
Proof.
  intros Hq. unfold q_w. rewrite in_app_iff, !in_flat_map. unfold row_w, item_w. split; (intros [(y & H1 & H2)|(y & H1 & H2)]; [ left | right ]).
  - apply in_map_iff in H2. destruct H2 as (j & <- & Hj). apply in_seq in H1, Hj. exists y, j. split; [ lia | split; [ lia | reflexivity ] ].
  - apply in_map_iff in H2. destruct H2 as (j & <- & Hj). apply in_seq in Hj. exists y, j. split; [ exact H1 | split; [ lia | reflexivity ] ].
  - destruct H2 as (Hr & Hj & ->). exists y. split; [ apply in_seq; lia | ]. apply in_map_iff. exists H1. split; [ reflexivity | apply in_seq; lia ].
  - destruct H2 as (Hx & Hj & ->). exists y. split; [ exact Hx | ]. apply in_map_iff. exists H1. split; [ reflexivity | apply in_seq; lia ].
Qed.

Lemma cols_ge : 5 <= cols.
Proof. destruct HP as ((_ & _ & _ & C4 & _) & _). unfold cols. lia. Qed.
Let rows := nth nq nrv 0.

Lemma same_place q q' x y : q < nq -> q' < nq -> In x (items q) -> In y (items q') -> row p x = row p y -> colf x = colf y -> q = q' /\ x = y.
Proof.
  intros Hq Hq' Hx Hy Er Ec. pose proof HP as ((_ & _ & C3 & _) & _ & _ & _ & HR & HI & _).
  assert (q = q') as <-.
  { pose proof (HR q x Hq Hx). pose proof (HR q' y Hq' Hy). apply (row_q q q' (row p x)); try assumption. rewrite Er. assumption. }
  split; [ reflexivity | ]. destruct (col_bound q x Hq Hx) as (_ & c & Hc & E1). destruct (col_bound q y Hq Hy) as (_ & c' & Hc' & E2).
  apply (HI q); try assumption. apply (C3 _ _ c); [ exact Hc | ]. replace c with c' by lia. exact Hc'.
Qed.

Lemma second_pass : exists data, 
  (do w <- ofold (fun acc q => do x <- q_writes V states deut cells ends pmom U T E qcm q_com_idx qWP e_unco e_coup tensor iso Np p nrv cols q; Ok (acc ++ x)) (seq 0 nq) [];
   ofold (fun a x => awrite a (fst x) (snd x)) w (repeat zero (cols * rows))) = Ok data /\
  length data = cols * rows /\
  (forall q r j, q < nq -> nth q nrv 0 <= r < nth (q + 1) nrv 0 -> j < 5 -> nth_error data (r * cols + j) = Some (first_five q j)) /\
  (forall q x j, q < nq -> In x (items q) -> j < 5 -> nth_error data (row p x * cols + (colf x + j)) = Some (five x j)) /\
  (forall r c, r < rows -> 5 <= c < cols -> (forall q x, q < nq -> In x (items q) -> ~ (r = row p x /\ colf x <= c < colf x + 5)) -> nth_error data (r * cols + c) = Some zero).
Proof.
  rewrite (ofold_append _ q_w) by (intros q Hq; apply in_seq in Hq; apply q_writes_ok; lia). cbn [obind app].
  pose proof cols_ge as Hcg. pose proof HP as (_ & _ & _ & _ & HR & _).
  assert (HW : forall w, In w (flat_map q_w (seq 0 nq)) <-> exists q, q < nq /\ In w (q_w q)).
  { intros w. rewrite in_flat_map. split; intros (q & H1 & H2); exists q; rewrite in_seq in *; split; try lia; assumption. }
  assert (Hrow : forall q r, q < nq -> nth q nrv 0 <= r < nth (q + 1) nrv 0 -> r < rows).
  { intros q r Hq Hr. pose proof (nrv_mono (q + 1) nq ltac:(lia) ltac:(lia)). unfold rows. lia. }
  destruct (scatter (fun w : nat * V => fst w) (fun w => snd w) (flat_map q_w (seq 0 nq)) (repeat zero (cols * rows))) as (data & Ed & HL & H1 & H2).
  - intros w Hw. apply HW in Hw. destruct Hw as (q & Hq & Hw). rewrite repeat_length. apply in_q_w in Hw; [ | exact Hq ].
    rewrite (Nat.mul_comm cols rows). destruct Hw as [(r & j & Hr & Hj & ->)|(x & j & Hx & Hj & ->)]; cbn [fst].
    + apply rm_lt; [ apply (Hrow q); assumption | lia ].
    + destruct (col_bound q x Hq Hx) as [Hc _]. apply rm_lt; [ apply (Hrow q); [ exact Hq | apply HR; assumption ] | lia ].
  - intros w w' Hw Hw' Ea. apply HW in Hw, Hw'. destruct Hw as (q & Hq & Hw), Hw' as (q' & Hq' & Hw'). apply in_q_w in Hw; [ | exact Hq ]. apply in_q_w in Hw'; [ | exact Hq' ].
    destruct Hw as [(r & j & Hr & Hj & ->)|(x & j & Hx & Hj & ->)], Hw' as [(r' & j' & Hr' & Hj' & ->)|(x' & j' & Hx' & Hj' & ->)]; cbn [fst snd] in *.
    + apply rm_inj in Ea; [ | lia | lia ]. destruct Ea as [<- <-]. rewrite (row_q q q' r Hq Hq' Hr Hr'). reflexivity.
    + destruct (col_bound q' x' Hq' Hx') as [Hc (c & _ & Ec)]. apply rm_inj in Ea; lia.
    + destruct (col_bound q x Hq Hx) as [Hc (c & _ & Ec)]. apply rm_inj in Ea; lia.
    + destruct (col_bound q x Hq Hx) as [Hc (c & _ & Ec)]. destruct (col_bound q' x' Hq' Hx') as [Hc' (c' & _ & Ec')]. apply rm_inj in Ea; [ | lia | lia ].
      destruct Ea as [Er Ej]. assert (j = j') as <- by lia. destruct (same_place q q' x x' Hq Hq' Hx Hx' Er ltac:(lia)) as [_ ->]. reflexivity.
  - rewrite repeat_length in HL. exists data. split; [ exact Ed | ]. split; [ exact HL | ]. split; [ | split ].
    + intros q r j Hq Hr Hj. apply (H1 (r * cols + j, first_five q j)). apply HW. exists q. split; [ exact Hq | ]. apply in_q_w; [ exact Hq | ]. left. exists r, j. auto.
    + intros q x j Hq Hx Hj. apply (H1 (row p x * cols + (colf x + j), five x j)). apply HW. exists q. split; [ exact Hq | ]. apply in_q_w; [ exact Hq | ]. right. exists x, j. auto.
    + intros r c Hr Hc Hnone. rewrite H2.
      * rewrite nth_error_repeat; [ reflexivity | ]. rewrite (Nat.mul_comm cols rows). apply rm_lt; lia.
      * intros w Hw Ea. apply HW in Hw. destruct Hw as (q & Hq & Hw). apply in_q_w in Hw; [ | exact Hq ].
        destruct Hw as [(r' & j & Hr' & Hj & ->)|(x & j & Hx & Hj & ->)]; cbn [fst] in Ea.
        -- apply rm_inj in Ea; lia.
        -- destruct (col_bound q x Hq Hx) as [Hcb _]. apply rm_inj in Ea; [ | lia | lia ]. destruct Ea as [<- <-]. apply (Hnone q x Hq Hx). split; [ reflexivity | lia ].
Qed.
End B.
