(** ProofList.v: lemmas for C123. *)
From Verif Require Import Base Lib ModelList SpecList.

Lemma put_same : forall f a v, put f a v a = v. Proof. intros. unfold put. rewrite Z.eqb_refl. reflexivity. Qed.
Lemma put_other : forall f a v x, x <> a -> put f a v x = f x. Proof. intros. unfold put. replace (x =? a) with false by lia. reflexivity. Qed.

(** The elements [xs] are chained, with [p] before and [n] behind them. *)
Fixpoint seg (pf nf : Z -> Z) (p : Z) (xs : list Z) (n : Z) : Prop :=
  match xs with [] => True | x :: r => pf x = p /\ nf x = hd n r /\ seg pf nf x r n end.
Lemma seg_cons : forall pf nf p x r n, pf x = p -> nf x = hd n r -> seg pf nf x r n -> seg pf nf p (x :: r) n.
Proof. intros. cbn [seg]. auto. Qed.
Lemma seg_app : forall pf nf xs ys p n, seg pf nf p (xs ++ ys) n <-> seg pf nf p xs (hd n ys) /\ seg pf nf (last xs p) ys n.
Proof.
  intros pf nf. induction xs as [|x xs IH]; intros ys p n; cbn [app seg]; [tauto|].
  rewrite IH. replace (hd n (xs ++ ys)) with (hd (hd n ys) xs) by (destruct xs; reflexivity).
  replace (last (x :: xs) p) with (last xs x); [tauto|]. clear. revert x p. induction xs as [|y xs IH]; intros x p; [reflexivity|]. change (last (x :: y :: xs) p) with (last (y :: xs) p). rewrite <- (IH y p). symmetry. apply (IH y x).
Qed.
Lemma seg_ext : forall pf nf pf' nf' xs p n, (forall x, In x xs -> pf' x = pf x /\ nf' x = nf x) -> seg pf nf p xs n -> seg pf' nf' p xs n.
Proof.
  intros pf nf pf' nf'. induction xs as [|x xs IH]; intros p n H S; cbn [seg] in *; auto. destruct S as (A & B & C). destruct (H x ltac:(left; auto)) as [E F].
  rewrite E, F. repeat split; auto. apply IH; auto. intros y Y. apply H. right. auto.
Qed.
Lemma seg_prev : forall pf nf xs p n e v, ~ In e xs -> seg pf nf p xs n -> seg (put pf e v) nf p xs n.
Proof. intros pf nf xs p n e v N S. eapply seg_ext; [|exact S]. intros x X. split; auto. apply put_other. intros ->. auto. Qed.
Lemma seg_next : forall pf nf xs p n e v, ~ In e xs -> seg pf nf p xs n -> seg pf (put nf e v) p xs n.
Proof. intros pf nf xs p n e v N S. eapply seg_ext; [|exact S]. intros x X. split; auto. apply put_other. intros ->. auto. Qed.
Lemma seg_first : forall pf nf x r p q n, NoDup (x :: r) -> seg pf nf p (x :: r) n -> seg (put pf x q) nf q (x :: r) n.
Proof.
  intros pf nf x r p q n N (A & B & C). inversion N; subst. cbn [seg]. rewrite put_same. repeat split; auto. apply seg_prev; auto.
Qed.
Lemma seg_last : forall pf nf r y p n k, NoDup (r ++ [y]) -> seg pf nf p (r ++ [y]) n -> seg pf (put nf y k) p (r ++ [y]) k.
Proof.
  intros pf nf r y p n k N S. rewrite seg_app in *. destruct S as (A & B & C & _). cbn [hd seg] in *. apply NoDup_remove_2 in N. rewrite app_nil_r in N.
  split; [apply seg_next; auto|]. rewrite put_same. auto.
Qed.
Lemma hd_in : forall xs, xs <> [] -> In (hd 0 xs) xs. Proof. intros [|x xs] H; [contradiction|left; reflexivity]. Qed.
Lemma last_in : forall (xs : list Z) d, xs <> [] -> In (last xs d) xs.
Proof. intros xs d H. destruct xs as [|x xs _] using rev_ind; [contradiction|]. rewrite last_last. apply in_or_app. right. left. auto. Qed.

Definition repr (m : dmem) (s : Z -> list Z) : Prop :=
  (forall l, d_head m l = hd 0 (s l) /\ d_tail m l = last (s l) 0 /\ seg (d_prev m) (d_next m) 0 (s l) 0) /\
  (forall l, NoDup (s l) /\ Forall (fun x => 0 < x) (s l)) /\
  (forall k l x, In x (s k) -> In x (s l) -> k = l) /\
  (forall e, (forall l, ~ In e (s l)) -> d_prev m e = -1).
(** What changes when only list [l] and elements outside the others change. *)
Lemma repr_change : forall m s m' s' l, repr m s -> (forall k, k <> l -> s' k = s k) ->
  (forall k, k <> l -> d_head m' k = d_head m k /\ d_tail m' k = d_tail m k) ->
  (forall k x, k <> l -> In x (s k) -> d_prev m' x = d_prev m x /\ d_next m' x = d_next m x) ->
  d_head m' l = hd 0 (s' l) -> d_tail m' l = last (s' l) 0 -> seg (d_prev m') (d_next m') 0 (s' l) 0 ->
  NoDup (s' l) -> Forall (fun x => 0 < x) (s' l) -> (forall k x, k <> l -> In x (s k) -> ~ In x (s' l)) ->
  (forall e, (forall k, ~ In e (s' k)) -> d_prev m' e = -1) -> repr m' s'.
Proof.
  intros m s m' s' l (R1 & R2 & R3 & R4) O1 O2 O3 H T S N P D U. repeat split; auto.
  - destruct (Z.eq_dec l0 l) as [->|E]; auto. rewrite O1 by auto. destruct (O2 l0 E) as [-> _]. apply R1.
  - destruct (Z.eq_dec l0 l) as [->|E]; auto. rewrite O1 by auto. destruct (O2 l0 E) as [_ ->]. apply R1.
  - destruct (Z.eq_dec l0 l) as [->|E]; auto. rewrite O1 by auto. eapply seg_ext; [|apply R1]. intros x X. apply (O3 l0); auto.
  - destruct (Z.eq_dec l0 l) as [->|E]; auto. rewrite O1 by auto. apply R2.
  - destruct (Z.eq_dec l0 l) as [->|E]; auto. rewrite O1 by auto. apply R2.
  - intros k j x K J. destruct (Z.eq_dec k l) as [->|Ek], (Z.eq_dec j l) as [->|Ej]; auto.
    + exfalso. rewrite O1 in J by auto. eapply D; eauto.
    + exfalso. rewrite O1 in K by auto. eapply D; eauto.
    + rewrite O1 in J, K by auto. eauto.
Qed.
Lemma set_prev_do : forall e v m, 0 < e -> set_prev e v m = Ok {| d_head := d_head m; d_tail := d_tail m; d_prev := put (d_prev m) e v; d_next := d_next m |}.
Proof. intros. unfold set_prev. replace (e >? 0) with true by lia. reflexivity. Qed.
Lemma set_next_do : forall e v m, 0 < e -> set_next e v m = Ok {| d_head := d_head m; d_tail := d_tail m; d_prev := d_prev m; d_next := put (d_next m) e v |}.
Proof. intros. unfold set_next. replace (e >? 0) with true by lia. reflexivity. Qed.
Lemma get_prev_do : forall e m, 0 < e -> get_prev e m = Ok (d_prev m e).
Proof. intros. unfold get_prev. replace (e >? 0) with true by lia. reflexivity. Qed.
Lemma get_next_do : forall e m, 0 < e -> get_next e m = Ok (d_next m e).
Proof. intros. unfold get_next. replace (e >? 0) with true by lia. reflexivity. Qed.
Ltac dl := repeat (progress (cbn [bind d_head d_tail d_prev d_next set_head set_tail] in *; rewrite ?put_same)).
(** A step of the model: all stores are to elements above 0. *)
Ltac go := repeat first [ rewrite set_prev_do by lia | rewrite set_next_do by lia | rewrite get_prev_do by lia | rewrite get_next_do by lia | progress dl ].

Section Ops.
Variables (m : dmem) (s s' : Z -> list Z) (l : Z).
Hypothesis R : repr m s.
Hypothesis O : forall k, k <> l -> s' k = s k.
Lemma rp_heads : d_head m l = hd 0 (s l) /\ d_tail m l = last (s l) 0 /\ seg (d_prev m) (d_next m) 0 (s l) 0 /\ NoDup (s l) /\ Forall (fun x => 0 < x) (s l).
Proof. destruct R as (A & B & _). destruct (A l) as (A1 & A2 & A3). destruct (B l). auto. Qed.
Lemma rp_out : forall k x, k <> l -> In x (s k) -> ~ In x (s l).
Proof. intros k x E I J. destruct R as (_ & _ & D & _). apply E. eauto. Qed.
Lemma rp_unlinked : forall e, (forall k, ~ In e (s k)) -> d_prev m e = -1.
Proof. destruct R as (_ & _ & _ & U). exact U. Qed.

Lemma still_unlinked : forall (P : Z -> Prop), (forall y, In y (s l) -> P y) -> forall y, ~ P y -> (forall k, ~ In y (s' k)) -> d_prev m y = -1.
Proof.
  intros P H y N I. apply rp_unlinked. intros k K. destruct (Z.eq_dec k l) as [->|E]; [apply N; auto|]. apply (I k). rewrite O; auto.
Qed.

Lemma prepend_ok : forall e, 0 < e -> (forall k, ~ In e (s k)) -> s' l = e :: s l -> exists m', prepend l e m = Ok m' /\ repr m' s'.
Proof.
  intros e Pe Ne Sl. destruct rp_heads as (H & T & S & N & P). unfold prepend. rewrite H. destruct (s l) as [|x r] eqn:L.
  - cbn [hd]. change (negb (0 =? 0)) with false. cbv iota. go. eexists. split; [reflexivity|]. apply (repr_change m s _ s' l R O); rewrite ?Sl; dl.
    + intros k Ek. rewrite !put_other by auto. auto.
    + intros k y Ek Iy. rewrite !put_other by (intros ->; eapply Ne; eauto). auto.
    + reflexivity.
    + reflexivity.
    + apply seg_cons; [apply put_same|rewrite put_same; exact H|exact I].
    + constructor; [intros []|constructor].
    + repeat constructor. auto.
    + intros k y Ek Iy [->|[]]. eapply Ne; eauto.
    + intros y Iy. rewrite put_other; [|intros ->; apply (Iy l); rewrite Sl; left; auto]. apply (still_unlinked (fun y => In y (s' l))); auto. rewrite L. intros z [].
  - inversion P as [|? ? Px Pr]; subst. cbn [hd]. replace (x =? 0) with false by lia. cbn [negb]. go.
    assert (Nex : ~ In e (x :: r)) by (rewrite <- L; apply Ne). eexists. split; [reflexivity|]. apply (repr_change m s _ s' l R O); rewrite ?Sl; dl.
    + intros k Ek. rewrite !put_other by auto. auto.
    + intros k y Ek Iy. assert (y <> e) by (intros ->; eapply Ne; eauto). assert (y <> x) by (intros ->; apply (rp_out k x Ek Iy); rewrite L; left; auto). rewrite !put_other by auto. auto.
    + reflexivity.
    + exact T.
    + apply seg_cons; [apply put_same|rewrite put_same; exact H|]. apply seg_prev; auto. apply seg_next; auto. eapply seg_first; eauto.
    + constructor; auto.
    + constructor; auto.
    + intros k y Ek Iy [->|Q]; [eapply Ne; eauto|]. apply (rp_out k y Ek Iy). rewrite L. auto.
    + intros y Iy. rewrite !put_other.
      * apply (still_unlinked (fun y => In y (s' l))); auto. rewrite L, Sl. intros z Q. right. auto.
      * intros ->. apply (Iy l). rewrite Sl. right. left. auto.
      * intros ->. apply (Iy l). rewrite Sl. left. auto.
Qed.
Lemma nodup_snoc : forall (r : list Z) e, NoDup r -> ~ In e r -> NoDup (r ++ [e]).
Proof. intros r e N I. apply (NoDup_Add (a := e) (l := r)); [rewrite <- (app_nil_r r) at 1; apply Add_app|auto]. Qed.
Lemma append_ok : forall e, 0 < e -> (forall k, ~ In e (s k)) -> s' l = s l ++ [e] -> exists m', append l e m = Ok m' /\ repr m' s'.
Proof.
  intros e Pe Ne Sl. destruct rp_heads as (H & T & S & N & P). unfold append. rewrite T. destruct (s l) as [|y r _] eqn:L using rev_ind.
  - cbn [last]. change (negb (0 =? 0)) with false. cbv iota. go. eexists. split; [reflexivity|]. apply (repr_change m s _ s' l R O); rewrite ?Sl; dl; cbn [app].
    + intros k Ek. rewrite !put_other by auto. auto.
    + intros k y Ek Iy. rewrite !put_other by (intros ->; eapply Ne; eauto). auto.
    + reflexivity.
    + reflexivity.
    + apply seg_cons; [rewrite put_same; exact T|apply put_same|exact I].
    + constructor; [intros []|constructor].
    + repeat constructor. auto.
    + intros k y Ek Iy [->|[]]. eapply Ne; eauto.
    + intros y Iy. rewrite put_other; [|intros ->; apply (Iy l); rewrite Sl; left; auto]. apply (still_unlinked (fun y => In y (s' l))); auto. rewrite L. intros z [].
  - rewrite last_last in *. assert (Py : 0 < y) by (apply Forall_app in P as [_ P]; inversion P; auto). replace (y =? 0) with false by lia. cbn [negb]. go.
    assert (Nex : ~ In e (r ++ [y])) by (rewrite <- L; apply Ne). assert (y <> e) by (intros ->; apply Nex, in_or_app; right; left; auto).
    eexists. split; [reflexivity|]. apply (repr_change m s _ s' l R O); rewrite ?Sl; dl.
    + intros k Ek. rewrite !put_other by auto. auto.
    + intros k z Ek Iy. assert (z <> e) by (intros ->; eapply Ne; eauto). assert (z <> y) by (intros ->; apply (rp_out k y Ek Iy); rewrite L; apply in_or_app; right; left; auto). rewrite !put_other by auto. auto.
    + rewrite H. destruct r; reflexivity.
    + symmetry. apply last_last.
    + apply seg_app. split.
      * cbn [hd]. apply seg_prev; auto. apply seg_next; auto. eapply seg_last; eauto.
      * apply seg_cons; [rewrite put_same, last_last; exact T|apply put_same|exact I].
    + apply nodup_snoc; auto.
    + apply Forall_app. auto.
    + intros k z Ek Iy Q. apply in_app_or in Q as [Q|[->|[]]]; [|eapply Ne; eauto]. apply (rp_out k z Ek Iy). rewrite L. auto.
    + intros z Iy. rewrite !put_other by (intros ->; apply (Iy l); rewrite Sl; apply in_or_app; right; left; auto).
      apply (still_unlinked (fun y => In y (s' l))); auto. rewrite L, Sl. intros x Q. apply in_or_app. auto.
Qed.

Lemma at_e : forall a e b, s l = a ++ e :: b -> 0 < e /\ d_prev m e = last a 0 /\ d_next m e = hd 0 b /\ seg (d_prev m) (d_next m) 0 a e /\ seg (d_prev m) (d_next m) e b 0 /\
  NoDup (a ++ e :: b) /\ Forall (fun x => 0 < x) (a ++ e :: b).
Proof.
  intros a e b L. destruct rp_heads as (H & T & S & N & P). rewrite L in *. apply seg_app in S as (A & B & C & D). repeat split; auto. apply Forall_app in P as [_ P]. inversion P; auto.
Qed.
Lemma unlink_mem : forall a e b, s l = a ++ e :: b -> unlink l e m = Ok
  {| d_head := match a with [] => put (d_head m) l (hd 0 b) | _ => d_head m end; d_tail := match b with [] => put (d_tail m) l (last a 0) | _ => d_tail m end;
     d_prev := put (match b with [] => d_prev m | y :: _ => put (d_prev m) y (last a 0) end) e (-1);
     d_next := put (match a with [] => d_next m | _ => put (d_next m) (last a 0) (hd 0 b) end) e (-1) |}.
Proof.
  intros a e b L. destruct (at_e a e b L) as (Pe & Hp & Hn & Sa & Sb & N & P). unfold unlink.
  assert (La : a <> [] -> 0 < last a 0). { intros Q. apply Forall_app in P as [P _]. rewrite Forall_forall in P. apply P. apply last_in. auto. }
  rewrite get_next_do by lia. cbn [bind]. rewrite Hn. destruct b as [|y b].
  - cbn [hd]. change (negb (0 =? 0)) with false. cbv iota. go. rewrite Hp. destruct a as [|z a].
    + cbn [last]. change (negb (0 =? 0)) with false. cbv iota. go. rewrite Hn. reflexivity.
    + specialize (La ltac:(discriminate)). set (w := last (z :: a) 0) in *. replace (w =? 0) with false by lia. cbn [negb]. go. rewrite Hn. reflexivity.
  - cbn [hd]. assert (Py : 0 < y) by (apply Forall_app in P as [_ P]; inversion P as [|? ? _ P']; inversion P'; auto). replace (y =? 0) with false by lia. cbn [negb]. go. rewrite Hp.
    assert (Ney : e <> y) by (intros ->; apply NoDup_remove_2 in N; apply N, in_or_app; right; left; auto). rewrite (put_other _ y _ e) by auto. rewrite Hp. destruct a as [|z a].
    + cbn [last]. change (negb (0 =? 0)) with false. cbv iota. go. rewrite Hn. reflexivity.
    + specialize (La ltac:(discriminate)). set (w := last (z :: a) 0) in *. replace (w =? 0) with false by lia. cbn [negb]. go. rewrite Hn. reflexivity.
Qed.
Lemma nodup_parts : forall (a b : list Z), NoDup (a ++ b) -> NoDup a /\ NoDup b /\ forall x, In x a -> ~ In x b.
Proof.
  induction a as [|x a IH]; intros b N; [repeat split; auto; constructor|]. cbn in N. inversion N as [|? ? Nx N']; subst. destruct (IH _ N') as (A & B & C).
  split; [constructor; auto; intros Q; apply Nx, in_or_app; auto|]. split; auto. intros y [->|Q]; auto. intros Q. apply Nx, in_or_app. auto.
Qed.
Lemma unlink_ok : forall a e b, s l = a ++ e :: b -> s' l = a ++ b -> exists m', unlink l e m = Ok m' /\ repr m' s'.
Proof.
  intros a e b L Sl. rewrite (unlink_mem a e b L). eexists. split; [reflexivity|]. destruct (at_e a e b L) as (Pe & Hp & Hn & Sa & Sb & N & P). destruct rp_heads as (H & T & _).
  pose proof (NoDup_remove_1 _ _ _ N) as Nab. pose proof (NoDup_remove_2 _ _ _ N) as Ne. destruct (nodup_parts _ _ Nab) as (Na & Nb & Dab).
  assert (Nea : ~ In e a) by (intros Q; apply Ne, in_or_app; auto). assert (Neb : ~ In e b) by (intros Q; apply Ne, in_or_app; auto).
  apply (repr_change m s _ s' l R O); rewrite ?Sl; dl.
  - intros k Ek. split; [destruct a|destruct b]; auto; apply put_other; auto.
  - intros k x Ek Ix. pose proof (rp_out k x Ek Ix) as Q. rewrite L in Q. assert (x <> e) by (intros ->; apply Q, in_or_app; right; left; auto).
    rewrite !(put_other _ e) by auto. split; [destruct b as [|y b]|destruct a as [|z a]]; auto; apply put_other; intros ->; apply Q.
    + apply in_or_app. right. right. left. auto.
    + apply in_or_app. left. apply last_in. discriminate.
  - destruct a as [|z a]; [apply put_same|]. rewrite H, L. reflexivity.
  - destruct b as [|y b]; [rewrite put_same, app_nil_r; reflexivity|]. rewrite T, L. clear. induction a as [|x a IH]; [reflexivity|]. cbn [app]. destruct a; [reflexivity|exact IH].
  - apply seg_app. split.
    + apply seg_prev; auto. apply seg_next; auto. assert (Q : seg (d_prev m) (match a with [] => d_next m | _ => put (d_next m) (last a 0) (hd 0 b) end) 0 a (hd 0 b)).
      { destruct a as [|z a' _] using rev_ind; [exact I|]. rewrite last_last. replace (match a' ++ [z] with [] => d_next m | _ => put (d_next m) z (hd 0 b) end) with (put (d_next m) z (hd 0 b)) by (destruct a'; reflexivity). eapply seg_last; eauto. }
      destruct b as [|y b]; auto. apply seg_prev; auto. intros Q2. apply (Dab y Q2). left. auto.
    + apply seg_prev; auto. apply seg_next; auto. assert (Q : seg (match b with [] => d_prev m | y :: _ => put (d_prev m) y (last a 0) end) (d_next m) (last a 0) b 0).
      { destruct b as [|y b]; [exact I|]. eapply seg_first; eauto. }
      destruct a as [|z a]; auto. apply seg_next; auto. intros Q2. apply (Dab (last (z :: a) 0)); auto. apply last_in. discriminate.
  - auto.
  - apply Forall_app in P as [P1 P2]. inversion P2; subst. apply Forall_app. auto.
  - intros k x Ek Ix Q. apply (rp_out k x Ek Ix). rewrite L. apply in_app_or in Q as [Q|Q]; apply in_or_app; [left|right; right]; auto.
  - intros x Ix. destruct (Z.eq_dec x e) as [->|Nx]; [apply put_same|]. rewrite put_other by auto.
    assert (Nxl : ~ In x (s l)). { rewrite L. intros Q. apply (Ix l). rewrite Sl. apply in_app_or in Q as [Q|[Q|Q]]; [|congruence|]; apply in_or_app; auto. }
    assert (U : d_prev m x = -1) by (apply (still_unlinked (fun y => In y (s l))); auto).
    destruct b as [|y b]; auto. rewrite put_other; auto. intros ->. apply Nxl. rewrite L. apply in_or_app. right. right. left. auto.
Qed.
Lemma before_ok : forall x e a b, 0 < e -> (forall k, ~ In e (s k)) -> s l = a ++ x :: b -> s' l = a ++ e :: x :: b -> exists m', insert_before l x e m = Ok m' /\ repr m' s'.
Proof.
  intros x e a b Pe Ne L Sl. destruct (at_e a x b L) as (Px & Hp & Hn & Sa & Sb & N & P). unfold insert_before. rewrite get_prev_do by lia. cbn [bind]. rewrite Hp. destruct a as [|y r _] using rev_ind.
  { cbn [last]. change (0 =? 0) with true. cbv iota. apply prepend_ok; auto. rewrite L. exact Sl. }
  rewrite last_last in *. assert (Py : 0 < y) by (apply Forall_app in P as [P _]; apply Forall_app in P as [_ P]; inversion P; auto). replace (y =? 0) with false by lia.
  assert (Nel : ~ In e ((r ++ [y]) ++ x :: b)) by (rewrite <- L; apply Ne). assert (Nex : e <> x) by (intros ->; apply Nel, in_or_app; right; left; auto).
  assert (Ney : e <> y) by (intros ->; apply Nel, in_or_app; left; apply in_or_app; right; left; auto). destruct (nodup_parts _ _ N) as (Na & Nb & Dab).
  assert (Nxy : x <> y) by (intros ->; apply (Dab y); [apply in_or_app; right; left; auto|left; auto]).
  go. rewrite (put_other _ x _ e) by auto. rewrite put_same. go. eexists. split; [reflexivity|]. destruct rp_heads as (H & T & _). apply (repr_change m s _ s' l R O); rewrite ?Sl; dl.
  - auto.
  - intros k z Ek Iz. pose proof (rp_out k z Ek Iz) as Q. rewrite L in Q. assert (z <> e) by (intros ->; eapply Ne; eauto). assert (z <> x) by (intros ->; apply Q, in_or_app; right; left; auto).
    assert (z <> y) by (intros ->; apply Q, in_or_app; left; apply in_or_app; right; left; auto). rewrite !put_other by auto. auto.
  - rewrite H, L. destruct r; reflexivity.
  - rewrite T, L. clear. generalize (r ++ [y]) as a. induction a as [|z a IH]; [reflexivity|]. cbn [app]. destruct a; exact IH.
  - apply seg_app. split.
    + cbn [hd]. apply seg_prev; [intros Q; apply (Dab x Q); left; auto|]. apply seg_prev; [intros Q; apply Nel, in_or_app; auto|]. apply seg_next; [intros Q; apply Nel, in_or_app; auto|]. eapply seg_last; eauto.
    + rewrite last_last. apply seg_cons; [rewrite (put_other _ x) by auto; apply put_same|apply put_same|]. apply seg_next; [intros Q; apply Nel, in_or_app; auto|]. apply seg_next; [intros Q; apply (Dab y); auto; apply in_or_app; right; left; auto|].
      eapply (seg_first _ _ x b y); auto. apply seg_prev; [intros Q; apply Nel, in_or_app; auto|]. cbn [seg]. auto.
  - apply (NoDup_Add (a := e) (l := (r ++ [y]) ++ x :: b)); [apply Add_app|auto].
  - apply Forall_app in P as [P1 P2]. apply Forall_app. auto.
  - intros k z Ek Iz Q. pose proof (rp_out k z Ek Iz) as Q2. rewrite L in Q2. apply in_app_or in Q as [Q|[->|Q]]; [apply Q2, in_or_app; auto|eapply Ne; eauto|apply Q2, in_or_app; auto].
  - intros z Iz. rewrite !put_other.
    + apply (still_unlinked (fun y => In y (s' l))); auto. rewrite L, Sl. intros w Q. apply in_app_or in Q as [Q|Q]; apply in_or_app; [left|right; right]; auto.
    + intros ->. apply (Iz l). rewrite Sl. apply in_or_app. right. left. auto.
    + intros ->. apply (Iz l). rewrite Sl. apply in_or_app. right. right. left. auto.
Qed.
Lemma after_ok : forall x e a b, 0 < e -> (forall k, ~ In e (s k)) -> s l = a ++ x :: b -> s' l = a ++ x :: e :: b -> exists m', insert_after l x e m = Ok m' /\ repr m' s'.
Proof.
  intros x e a b Pe Ne L Sl. destruct (at_e a x b L) as (Px & Hp & Hn & Sa & Sb & N & P). unfold insert_after. rewrite get_next_do by lia. cbn [bind]. rewrite Hn. destruct b as [|z c].
  { cbn [hd]. change (0 =? 0) with true. cbv iota. apply append_ok; auto. rewrite L, <- app_assoc. exact Sl. }
  cbn [hd] in *. assert (Pz : 0 < z) by (apply Forall_app in P as [_ P]; inversion P as [|? ? _ P']; inversion P'; auto). replace (z =? 0) with false by lia.
  assert (Nel : ~ In e (a ++ x :: z :: c)) by (rewrite <- L; apply Ne). assert (Nex : e <> x) by (intros ->; apply Nel, in_or_app; right; left; auto).
  assert (Nez : e <> z) by (intros ->; apply Nel, in_or_app; right; right; left; auto). destruct (nodup_parts _ _ N) as (Na & Nb & Dab). apply NoDup_cons_iff in Nb as [Nxz Nzc].
  assert (Nax : ~ In x a) by (intros Q; apply (Dab x Q); left; auto).
  go. rewrite (put_other _ x _ e) by auto. rewrite put_same. go. eexists. split; [reflexivity|]. destruct rp_heads as (H & T & _). apply (repr_change m s _ s' l R O); rewrite ?Sl; dl.
  - auto.
  - intros k w Ek Iw. pose proof (rp_out k w Ek Iw) as Q. rewrite L in Q. assert (w <> e) by (intros ->; eapply Ne; eauto). assert (w <> x) by (intros ->; apply Q, in_or_app; right; left; auto).
    assert (w <> z) by (intros ->; apply Q, in_or_app; right; right; left; auto). rewrite !put_other by auto. auto.
  - rewrite H, L. destruct a; reflexivity.
  - rewrite T, L. clear. induction a as [|w a IH]; [reflexivity|]. cbn [app]. destruct a; exact IH.
  - apply seg_app. cbn [hd]. split.
    + apply seg_prev; [intros Q; apply Nel, in_or_app; auto|]. apply seg_prev; [intros Q; apply (Dab z Q); right; left; auto|]. apply seg_next; auto. apply seg_next; [intros Q; apply Nel, in_or_app; auto|]. exact Sa.
    + apply seg_cons; [rewrite !put_other by (auto; intros ->; apply Nxz; left; auto); exact Hp|apply put_same|].
      apply seg_cons; [apply put_same|rewrite (put_other _ x) by auto; apply put_same|].
      apply seg_prev; [intros Q; apply Nel, in_or_app; right; right; auto|]. apply seg_next; auto. apply seg_next; [intros Q; apply Nel, in_or_app; right; right; auto|]. eapply seg_first; eauto.
  - replace (a ++ x :: e :: z :: c) with ((a ++ [x]) ++ e :: z :: c) by (rewrite <- app_assoc; reflexivity). apply (NoDup_Add (a := e) (l := (a ++ [x]) ++ z :: c)); [apply Add_app|]. rewrite <- app_assoc. auto.
  - apply Forall_app in P as [P1 P2]. apply Forall_app. inversion P2; subst. auto.
  - intros k w Ek Iw Q. pose proof (rp_out k w Ek Iw) as Q2. rewrite L in Q2. apply in_app_or in Q as [Q|[->|[->|Q]]]; [apply Q2, in_or_app; auto|apply Q2, in_or_app; right; left; auto|eapply Ne; eauto|apply Q2, in_or_app; right; right; auto].
  - intros w Iw. rewrite !put_other.
    + apply (still_unlinked (fun y => In y (s' l))); auto. rewrite L, Sl. intros v Q. apply in_app_or in Q as [Q|[Q|Q]]; apply in_or_app; [left; auto|right; left; auto|right; right; right; auto].
    + intros ->. apply (Iw l). rewrite Sl. apply in_or_app. right. right. right. left. auto.
    + intros ->. apply (Iw l). rewrite Sl. apply in_or_app. right. right. left. auto.
Qed.
End Ops.

Lemma init_ok : forall m s s' l, repr m s -> s l = [] -> s' l = [] -> (forall k, k <> l -> s' k = s k) -> exists m', list_init l m = Ok m' /\ repr m' s'.
Proof.
  intros m s s' l R L Sl O. eexists. split; [reflexivity|]. apply (repr_change m s _ s' l R O); rewrite ?Sl; dl; auto; try (constructor; fail); try exact I.
  - intros k Ek. rewrite !put_other by auto. auto.
  - intros e Ie. apply (rp_unlinked m s R). intros k K. destruct (Z.eq_dec k l) as [->|E]; [rewrite L in K; auto|]. apply (Ie k). rewrite O; auto.
Qed.
Lemma append_list_ok : forall m s s' l k, repr m s -> l <> k -> s' l = s l ++ s k -> s' k = [] -> (forall i, i <> l -> i <> k -> s' i = s i) ->
  exists m', append_list l k m = Ok m' /\ repr m' s'.
Proof.
  intros m s s' l k R Nlk Sl Sk O. destruct R as (R1 & R2 & R3 & R4). destruct (R1 l) as (Hl & Tl & Gl). destruct (R1 k) as (Hk & Tk & Gk). destruct (R2 l) as (Nl & Pl). destruct (R2 k) as (Nk & Pk).
  assert (Dlk : forall x, In x (s l) -> ~ In x (s k)) by (intros x I J; apply Nlk; eauto).
  (* the rest: one more list is joined to another *)
  assert (G : forall hf tf pf nf, (forall i, i <> l -> i <> k -> hf i = d_head m i /\ tf i = d_tail m i) -> hf k = 0 -> tf k = 0 -> hf l = hd 0 (s l ++ s k) -> tf l = last (s l ++ s k) 0 ->
    seg pf nf 0 (s l ++ s k) 0 -> (forall x, ~ In x (s l) -> ~ In x (s k) -> pf x = d_prev m x /\ nf x = d_next m x) -> repr {| d_head := hf; d_tail := tf; d_prev := pf; d_next := nf |} s').
  { intros hf tf pf nf Q1 Q2 Q3 Q4 Q5 Q6 Q7. assert (Seg : forall i, i <> l -> i <> k -> seg pf nf 0 (s i) 0).
    { intros i E1 E2. eapply seg_ext; [|apply R1]. intros x X. apply Q7; intros Y; [apply E1|apply E2]; eauto. }
    split; [|split; [|split]]; cbn [d_head d_tail d_prev d_next].
    - intros i. destruct (Z.eq_dec i l) as [->|E1]; [rewrite Sl; auto|]. destruct (Z.eq_dec i k) as [->|E2]; [rewrite Sk; cbn; auto|]. rewrite O by auto. destruct (Q1 i E1 E2) as [-> ->]. destruct (R1 i) as (A & B & _). auto.
    - intros i. destruct (Z.eq_dec i l) as [->|E1]; [rewrite Sl|destruct (Z.eq_dec i k) as [->|E2]; [rewrite Sk; split; constructor|rewrite O by auto; auto]].
      split; [|apply Forall_app; auto]. clear - Nl Nk Dlk. induction (s l) as [|x r IH]; [exact Nk|]. inversion Nl; subst. cbn. constructor; [|apply IH; auto; intros y Y; apply Dlk; right; auto].
      intros Q. apply in_app_or in Q as [Q|Q]; auto. apply (Dlk x); [left|]; auto.
    - assert (C : forall i x, In x (s' i) -> exists j, In x (s j) /\ (i = j \/ i = l /\ j = k) /\ i <> k).
      { intros i x I. destruct (Z.eq_dec i l) as [->|E1]; [rewrite Sl in I; apply in_app_or in I as [I|I]; [exists l|exists k]; auto|]. destruct (Z.eq_dec i k) as [->|E2]; [rewrite Sk in I; contradiction|]. rewrite O in I by auto. exists i. auto. }
      intros i j x I J. apply C in I as (i' & I & A & A'). apply C in J as (j' & J & B & B'). assert (i' = j') by eauto. subst. destruct A as [->|[-> ->]], B as [->|[-> B]]; auto; congruence.
    - intros e I. assert (Q : forall i, ~ In e (s i)). { intros i J. destruct (Z.eq_dec i l) as [->|E1]; [apply (I l); rewrite Sl; apply in_or_app; auto|]. destruct (Z.eq_dec i k) as [->|E2]; [apply (I l); rewrite Sl; apply in_or_app; auto|]. apply (I i). rewrite O; auto. }
      destruct (Q7 e (Q l) (Q k)) as [-> _]. auto. }
  unfold append_list, list_empty. rewrite Hl. destruct (s l) as [|x r] eqn:L.
  - cbn [hd]. change (0 =? 0) with true. cbv iota. go. eexists. split; [reflexivity|]. apply G; dl; cbn [app].
    + intros i E1 E2. rewrite !put_other by auto. auto.
    + rewrite ?put_same. auto.
    + rewrite ?put_same. auto.
    + rewrite ?put_other by auto. rewrite ?put_same. auto.
    + rewrite ?put_other by auto. rewrite ?put_same. auto.
    + exact Gk.
    + auto.
  - inversion Pl as [|? ? Px Pr]; subst. cbn [hd]. replace (x =? 0) with false by lia. rewrite Hk. destruct (s k) as [|y c] eqn:K.
    + cbn [hd]. change (negb (0 =? 0)) with false. cbv iota. go. eexists. split; [reflexivity|]. apply G; dl; rewrite ?app_nil_r; auto.
      * intros i E1 E2. rewrite !put_other by auto. auto.
      * rewrite put_other by auto. auto.
      * rewrite put_other by auto. auto.
    + inversion Pk as [|? ? Py Pc]; subst. cbn [hd]. replace (y =? 0) with false by lia. cbn [negb]. rewrite Tl.
      assert (Lx : In (last (x :: r) 0) (x :: r)) by (apply last_in; discriminate). assert (PL : 0 < last (x :: r) 0) by (rewrite Forall_forall in Pl; apply Pl; auto).
      set (w := last (x :: r) 0) in *. go. rewrite Hk. cbn [hd]. go. eexists. split; [reflexivity|]. rewrite Tl. apply G; dl.
      * intros i E1 E2. rewrite !put_other by auto. auto.
      * rewrite ?put_same. auto.
      * rewrite ?put_same. auto.
      * rewrite put_other by auto. exact Hl.
      * rewrite ?put_other by auto. rewrite ?put_same, Tk. clear. generalize (x :: r) as a. induction a as [|z a IH]; [reflexivity|]. cbn [app]. destruct a; exact IH.
      * apply seg_app. split.
        { cbn [hd]. apply seg_prev; [intros Q; apply (Dlk y Q); left; auto|]. unfold w. clearbody w. assert (Q : exists r' z, x :: r = r' ++ [z]) by (exists (removelast (x :: r)), (last (x :: r) 0); apply app_removelast_last; discriminate).
          destruct Q as (r' & z & Q). rewrite Q in *. rewrite last_last. eapply seg_last; eauto. }
        { fold w. apply seg_next; [apply Dlk; auto|]. eapply seg_first; eauto. }
      * intros z Z1 Z2. rewrite !put_other; auto; intros ->; [apply Z1; auto|apply Z2; left; auto].
Qed.
Lemma step_ok : forall m s o s', repr m s -> legal s o s' -> exists m', run_op o m = Ok m' /\ repr m' s'.
Proof.
  intros m s o s' R L. destruct L; cbn [run_op].
  - eapply init_ok; eauto.
  - eapply prepend_ok; eauto.
  - eapply append_ok; eauto.
  - eapply unlink_ok; eauto.
  - eapply before_ok; eauto.
  - eapply after_ok; eauto.
  - eapply append_list_ok; eauto.
Qed.
Lemma history_ok : forall s os s', history s os s' -> forall m, repr m s -> exists m', run_ops os m = Ok m' /\ repr m' s'.
Proof.
  intros s os s' H. induction H as [s|s o s1 os s2 L H IH]; intros m R; [exists m; auto|]. destruct (step_ok m s o s1 R L) as (m1 & E1 & R1). destruct (IH m1 R1) as (m2 & E2 & R2).
  exists m2. cbn [run_ops]. rewrite E1. auto.
Qed.
Lemma fresh_repr : forall m, fresh_mem m -> repr m (fun _ => []).
Proof.
  intros m (H & L). split; [|split; [|split]].
  - intros l. destruct (H l) as [-> ->]. cbn. auto.
  - intros l. split; constructor.
  - intros k l x [].
  - intros e _. apply L.
Qed.
Lemma walk_seg : forall pf nf hf tf xs p n, (length xs < n)%nat -> Forall (fun x => 0 < x) xs -> seg pf nf p xs 0 -> walk n (hd 0 xs) {| d_head := hf; d_tail := tf; d_prev := pf; d_next := nf |} = Ok xs.
Proof.
  intros pf nf hf tf. induction xs as [|x xs IH]; intros p n Ln P S; (destruct n as [|n]; [cbn in Ln; lia|]); cbn [walk hd].
  - reflexivity.
  - inversion P; subst. destruct S as (A & B & C). replace (x =? 0) with false by lia. rewrite get_next_do by auto. cbn [bind d_next]. rewrite B. rewrite (IH x n); auto. cbn in Ln. lia.
Qed.
Lemma walk_back_seg : forall pf nf hf tf xs q n, (length xs < n)%nat -> Forall (fun x => 0 < x) xs -> seg pf nf 0 xs q -> walk_back n (last xs 0) {| d_head := hf; d_tail := tf; d_prev := pf; d_next := nf |} = Ok (rev xs).
Proof.
  intros pf nf hf tf xs. induction xs as [|x xs IH] using rev_ind; intros q n Ln P S; (destruct n as [|n]; [cbn in Ln; lia|]); cbn [walk_back].
  - reflexivity.
  - rewrite last_last. apply Forall_app in P as [P1 P2]. inversion P2; subst. apply seg_app in S as (A & B & C & _). replace (x =? 0) with false by lia. rewrite get_prev_do by auto. cbn [bind d_prev]. rewrite B.
    rewrite app_length in Ln. cbn in Ln. rewrite (IH _ n ltac:(lia) P1 A). cbn [bind]. rewrite rev_app_distr. reflexivity.
Qed.
