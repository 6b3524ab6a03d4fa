(** PropSplay.v: C139-C141 (libmy/tree.h, splay trees), for every comparison function, tree and history. *)
From Verif Require Import Base Lib ModelSplay SpecSplay.
From Coq Require Import Sorted.

Fixpoint inL {A} (s : spine A) : list A := match s with [] => [] | (y, l) :: s => inL s ++ inorder l ++ [y] end.
Fixpoint inR {A} (s : spine A) : list A := match s with [] => [] | (y, r) :: s => y :: inorder r ++ inR s end.
Lemma inorder_hang_left : forall A (s : spine A) t, inorder (hang_left s t) = inL s ++ inorder t.
Proof. induction s as [|[y l] s IH]; intros t; cbn [hang_left inL]; [auto|]. rewrite IH. cbn [inorder]. rewrite <- !app_assoc. auto. Qed.
Lemma inorder_hang_right : forall A (s : spine A) t, inorder (hang_right s t) = inorder t ++ inR s.
Proof. induction s as [|[y r] s IH]; intros t; cbn [hang_right inR]; [rewrite app_nil_r; auto|]. rewrite IH. cbn [inorder]. rewrite <- !app_assoc. auto. Qed.

(** The signs of the comparisons of elm with a sorted list. *)
Definition signs {A} (k : A -> Z) (l : list A) : Prop := StronglySorted (fun y z => k y <= 0 -> k z < 0) l.
Definition good_root {A} (k : A -> Z) (t : tree A) : Prop :=
  match t with Leaf => False | Node l x r => (k x < 0 -> Forall (fun y => k y > 0) (inorder l)) /\ (k x > 0 -> Forall (fun y => k y < 0) (inorder r)) end.
Lemma ss_app : forall A (R : A -> A -> Prop) a b, StronglySorted R (a ++ b) <-> StronglySorted R a /\ StronglySorted R b /\ forall x y, In x a -> In y b -> R x y.
Proof.
  intros A R. induction a as [|c a IH]; intros b; cbn [app].
  - split; [intros S; repeat split; auto; [constructor|intros x y []]|tauto].
  - split.
    + intros S. inversion S as [|? ? S' F]; subst. apply IH in S' as (A1 & A2 & A3). rewrite Forall_app in F. destruct F as [F1 F2]. repeat split; auto; [constructor; auto|]. intros x y [<-|X] Y; [|auto]. rewrite Forall_forall in F2. auto.
    + intros (S1 & S2 & H). inversion S1 as [|? ? S' F]; subst. constructor; [apply IH; repeat split; auto; intros; apply H; auto; right; auto|]. apply Forall_app. split; auto. apply Forall_forall. intros y Y. apply H; auto. left; auto.
Qed.
Lemma ss_node : forall A (R : A -> A -> Prop) a x b, StronglySorted R (a ++ x :: b) <-> StronglySorted R a /\ StronglySorted R b /\ Forall (fun y => R y x) a /\ Forall (R x) b /\ forall y z, In y a -> In z b -> R y z.
Proof.
  intros A R a x b. rewrite ss_app. rewrite !Forall_forall. split.
  - intros (S1 & S2 & H). inversion S2 as [|? ? S' F]; subst. rewrite Forall_forall in F. repeat split; auto; intros; apply H; auto; [left; auto|right; auto].
  - intros (S1 & S2 & H1 & H2 & H3). split; [auto|]. split; [constructor; auto; apply Forall_forall; auto|]. intros y z Y [<-|Z]; auto.
Qed.
Lemma after_neg : forall A (k : A -> Z) a x b, signs k (a ++ x :: b) -> k x <= 0 -> Forall (fun y => k y < 0) b.
Proof. intros A k a x b S K. apply ss_node in S as (_ & _ & _ & F & _). rewrite Forall_forall in *. intros y Y. apply (F y Y K). Qed.
Lemma before_pos : forall A (k : A -> Z) a x b, signs k (a ++ x :: b) -> k x >= 0 -> Forall (fun y => k y > 0) a.
Proof. intros A k a x b S K. apply ss_node in S as (_ & _ & F & _). rewrite Forall_forall in *. intros y Y. specialize (F y Y). destruct (Z_le_gt_dec (k y) 0); [specialize (F l); lia|auto]. Qed.

Lemma assemble_ok : forall A (k : A -> Z) l x r L R, exists t', assemble (Node l x r) L R = Ok t' /\ inorder t' = inL L ++ inorder (Node l x r) ++ inR R /\
  (Forall (fun y => k y > 0) (inL L) -> Forall (fun y => k y < 0) (inR R) -> (k x < 0 -> l = Leaf) -> (k x > 0 -> r = Leaf) -> good_root k t') /\ t' <> Leaf.
Proof.
  intros A k l x r L R. cbn [assemble]. eexists. split; [reflexivity|]. split; [|split; [|discriminate]].
  - cbn [inorder]. rewrite inorder_hang_left, inorder_hang_right, <- !app_assoc. cbn [app]. auto.
  - intros FL FR HL HR. cbn [good_root]. rewrite inorder_hang_left, inorder_hang_right. split; intros K.
    + rewrite (HL K). cbn [inorder]. rewrite app_nil_r. auto.
    + rewrite (HR K). cbn [inorder app]. auto.
Qed.
Lemma splay_loop_ok : forall A (k : A -> Z) fuel t L R, t <> Leaf -> (tsize t < fuel)%nat ->
  exists t', splay_loop fuel k t L R = Ok t' /\ inorder t' = inL L ++ inorder t ++ inR R /\ t' <> Leaf /\
  (signs k (inorder t) -> Forall (fun y => k y > 0) (inL L) -> Forall (fun y => k y < 0) (inR R) -> good_root k t').
Proof.
  intros A k. induction fuel as [|fuel IH]; intros t L R N Z; [lia|]. destruct t as [|l x r]; [contradiction|]. cbn [splay_loop tsize] in *.
  destruct (k x =? 0) eqn:K0.
  { destruct (assemble_ok A k l x r L R) as (t' & E & I & G & N'). exists t'. split; [exact E|]. split; [exact I|]. split; [exact N'|]. intros S FL FR. apply G; auto; lia. }
  destruct (k x <? 0) eqn:K1.
  - destruct l as [|ll y lr].
    { destruct (assemble_ok A k Leaf x r L R) as (t' & E & I & G & N'). exists t'. split; [exact E|]. split; [exact I|]. split; [exact N'|]. intros S FL FR. apply G; auto; lia. }
    destruct (k y <? 0) eqn:K2.
    + destruct ll as [|a b c].
      * destruct (assemble_ok A k Leaf y (Node lr x r) L R) as (t' & E & I & G & N'). exists t'. split; [exact E|]. split; [rewrite I; cbn [inorder app]; rewrite <- !app_assoc; auto|]. split; [exact N'|]. intros S FL FR. apply G; auto; lia.
      * set (ll := Node a b c) in *. destruct (IH ll L ((y, Node lr x r) :: R) ltac:(discriminate) ltac:(cbn [tsize] in Z; lia)) as (t' & E & I & N' & G). exists t'. split; [exact E|]. split; [|split; [exact N'|]].
        { rewrite I. cbn [inR inorder]. repeat (cbn [app]; rewrite <- ?app_assoc). auto. }
        { intros S FL FR. apply G; auto.
          - change (inorder (Node (Node ll y lr) x r)) with ((inorder ll ++ y :: inorder lr) ++ x :: inorder r) in S. unfold signs in S. apply ss_node in S as (S & _). apply ss_node in S as (S & _). exact S.
          - change (inorder (Node (Node ll y lr) x r)) with ((inorder ll ++ y :: inorder lr) ++ x :: inorder r) in S. cbn [inR inorder]. rewrite <- app_assoc in S. cbn [app] in S. apply after_neg in S; [|lia]. constructor; [lia|]. apply Forall_app. auto. }
    + set (l := Node ll y lr) in *. destruct (IH l L ((x, r) :: R) ltac:(discriminate) ltac:(lia)) as (t' & E & I & N' & G). exists t'. split; [exact E|]. split; [|split; [exact N'|]].
      * rewrite I. cbn [inR]. change (inorder (Node l x r)) with (inorder l ++ x :: inorder r). rewrite <- !app_assoc. auto.
      * intros S FL FR. change (inorder (Node l x r)) with (inorder l ++ x :: inorder r) in S. apply G; auto; [unfold signs in S; apply ss_node in S; apply S|]. cbn [inR]. constructor; [lia|]. apply Forall_app. split; [|auto]. eapply after_neg; [exact S|lia].
  - destruct r as [|rl y rr].
    { destruct (assemble_ok A k l x Leaf L R) as (t' & E & I & G & N'). exists t'. split; [exact E|]. split; [exact I|]. split; [exact N'|]. intros S FL FR. apply G; auto; lia. }
    destruct (k y >? 0) eqn:K2.
    + destruct rr as [|a b c].
      * destruct (assemble_ok A k (Node l x rl) y Leaf L R) as (t' & E & I & G & N'). exists t'. split; [exact E|]. split; [rewrite I; cbn [inorder]; rewrite <- !app_assoc; cbn [app]; rewrite <- ?app_assoc; auto|]. split; [exact N'|]. intros S FL FR. apply G; auto; lia.
      * set (rr := Node a b c) in *. destruct (IH rr ((y, Node l x rl) :: L) R ltac:(discriminate) ltac:(cbn [tsize] in Z; lia)) as (t' & E & I & N' & G). exists t'. split; [exact E|]. split; [|split; [exact N'|]].
        { rewrite I. cbn [inL inorder]. repeat (cbn [app]; rewrite <- ?app_assoc). auto. }
        { intros S FL FR. change (inorder (Node l x (Node rl y rr))) with (inorder l ++ x :: (inorder rl ++ y :: inorder rr)) in S. apply G; auto.
          - unfold signs in S. apply ss_node in S as (_ & S & _). apply ss_node in S as (_ & S & _). exact S.
          - cbn [inL inorder]. replace (inorder l ++ x :: inorder rl ++ y :: inorder rr) with ((inorder l ++ x :: inorder rl) ++ y :: inorder rr) in S by (rewrite <- app_assoc; auto). apply before_pos in S; [|lia]. apply Forall_app. split; [auto|]. apply Forall_app. split; [exact S|]. constructor; [lia|constructor]. }
    + set (r := Node rl y rr) in *. destruct (IH r ((x, l) :: L) R ltac:(discriminate) ltac:(lia)) as (t' & E & I & N' & G). exists t'. split; [exact E|]. split; [|split; [exact N'|]].
      * rewrite I. cbn [inL]. change (inorder (Node l x r)) with (inorder l ++ x :: inorder r). repeat (cbn [app]; rewrite <- ?app_assoc). auto.
      * intros S FL FR. change (inorder (Node l x r)) with (inorder l ++ x :: inorder r) in S. apply G; auto; [unfold signs in S; apply ss_node in S; apply S|]. cbn [inL]. apply Forall_app. split; [auto|]. apply Forall_app. split; [eapply before_pos; [exact S|lia]|constructor; [lia|constructor]].
Qed.
Lemma splay_ok : forall A (k : A -> Z) t, t <> Leaf -> exists l x r, splay k t = Ok (Node l x r) /\ inorder (Node l x r) = inorder t /\ (signs k (inorder t) -> good_root k (Node l x r)).
Proof.
  intros A k t N. destruct (splay_loop_ok A k (S (tsize t)) t [] [] N ltac:(lia)) as (t' & E & I & N' & G). destruct t' as [|l x r]; [contradiction|]. exists l, x, r. split; [exact E|]. split; [rewrite I; cbn [inL inR app]; apply app_nil_r|]. intros S. apply G; auto; constructor.
Qed.

(** ** Comparisons *)
Section Order.
  Context {A : Type} (cmp : A -> A -> Z) (C : comparison cmp).
  Lemma cmp_zero : forall x y, cmp x y = 0 <-> cmp y x = 0. Proof. intros x y. pose proof (cmp_sym cmp C x y). pose proof (cmp_sym cmp C y x). lia. Qed.
  Lemma lt_le : forall x y z, cmp x y < 0 -> cmp y z <= 0 -> cmp x z < 0.
  Proof. intros x y z H1 H2. destruct (Z_lt_ge_dec (cmp x z) 0) as [L|G]; [auto|]. exfalso. assert (cmp z x <= 0) by (pose proof (cmp_sym cmp C z x); pose proof (cmp_sym cmp C x z); lia). pose proof (cmp_trans cmp C y z x H2 H). apply (cmp_sym cmp C) in H1. lia. Qed.
  Lemma le_lt : forall x y z, cmp x y <= 0 -> cmp y z < 0 -> cmp x z < 0.
  Proof. intros x y z H1 H2. destruct (Z_lt_ge_dec (cmp x z) 0) as [L|G]; [auto|]. exfalso. assert (cmp z x <= 0) by (pose proof (cmp_sym cmp C z x); pose proof (cmp_sym cmp C x z); lia). pose proof (cmp_trans cmp C z x y H H1). apply (cmp_sym cmp C) in H2. lia. Qed.
  Lemma cmp_self : forall x, cmp x x = 0. Proof. intros x. pose proof (cmp_sym cmp C x x). lia. Qed.
  Lemma sorted_signs : forall x l, sorted cmp l -> signs (cmp x) l.
  Proof. intros x. induction l as [|y l IH]; intros S; [constructor|]. inversion S as [|? ? S' F]; subst. constructor; [apply IH; auto|]. rewrite Forall_forall in *. intros z Z K. eapply le_lt; eauto. Qed.
  Lemma without_nil : forall x l, Forall (fun y => cmp x y <> 0) l -> without cmp x l = l.
  Proof. intros x. induction l as [|y l IH]; intros F; [auto|]. inversion F; subst. unfold without. cbn [filter]. replace (cmp x y =? 0) with false by lia. cbn [negb]. f_equal. apply IH; auto. Qed.
  Lemma put_app : forall x a b, Forall (fun y => cmp x y > 0) a -> put cmp x (a ++ b) = a ++ put cmp x b.
  Proof. intros x. induction a as [|y a IH]; intros b F; [auto|]. inversion F; subst. cbn [app put]. replace (cmp x y <? 0) with false by lia. f_equal. apply IH; auto. Qed.
End Order.
Lemma Forall_mp : forall A (P Q : A -> Prop) l, Forall P l -> (forall x, P x -> Q x) -> Forall Q l.
Proof. intros A P Q l F H. eapply Forall_impl; eauto. Qed.

(** ** C139: splaying keeps the elements *)
(** Whatever the comparison function says, splaying a tree that is not empty ends, follows no NULL pointer and leaves the order of the elements. *)
Theorem C139_splay : forall A (k : A -> Z) t, t <> Leaf -> exists t', splay k t = Ok t' /\ inorder t' = inorder t /\ t' <> Leaf.
Proof. intros A k t N. destruct (splay_ok A k t N) as (l & x & r & E & I & _). exists (Node l x r). split; [exact E|]. split; [exact I|discriminate]. Qed.
Print Assumptions C139_splay.
(** So finding and taking the minimum or maximum never lose or duplicate an element, and insert and remove change the elements by one at most. *)
Theorem C139_any_cmp : forall A (cmp : A -> A -> Z) x t,
  (exists r t', splay_find cmp x t = Ok (r, t') /\ inorder t' = inorder t) /\
  (exists r t', splay_min_max (-1) t = Ok (r, t') /\ inorder t' = inorder t) /\ (exists r t', splay_min_max 1 t = Ok (r, t') /\ inorder t' = inorder t) /\
  (exists r t', splay_insert cmp x t = Ok (r, t') /\ (r = None /\ (exists a b, inorder t = a ++ b /\ inorder t' = a ++ x :: b) \/ r <> None /\ inorder t' = inorder t)).
Proof.
  intros A cmp x t. destruct t as [|l0 x0 r0]; [cbn; repeat split; eauto; exists None, (Node Leaf x Leaf); split; [auto|]; left; split; [auto|]; exists [], []; auto|]. set (t := Node l0 x0 r0).
  assert (M : forall v, v <> 0 -> exists r t', splay_min_max v t = Ok (r, t') /\ inorder t' = inorder t).
  { intros v V. cbn [splay_min_max t]. fold t. unfold splay_minmax. replace (v =? 0) with false by lia. destruct (splay_ok A (fun _ => v) t ltac:(discriminate)) as (l & y & r & E & I & _). rewrite E. cbn [bind]. eauto. }
  split; [|split; [apply M; lia|split; [apply M; lia|]]].
  - cbn [splay_find t]. fold t. destruct (splay_ok A (cmp x) t ltac:(discriminate)) as (l & y & r & E & I & _). rewrite E. cbn [bind]. destruct (cmp x y =? 0); eauto.
  - cbn [splay_insert t]. fold t. destruct (splay_ok A (cmp x) t ltac:(discriminate)) as (l & y & r & E & I & _). rewrite E. cbn [bind]. destruct (cmp x y <? 0); [|destruct (cmp x y >? 0)].
    + do 2 eexists. split; [reflexivity|]. left. split; [auto|]. exists (inorder l), (y :: inorder r). split; [rewrite <- I; auto|auto].
    + do 2 eexists. split; [reflexivity|]. left. split; [auto|]. exists (inorder l ++ [y]), (inorder r). cbn [inorder] in *. rewrite <- I, <- !app_assoc. auto.
    + do 2 eexists. split; [reflexivity|]. right. split; [discriminate|exact I].
Qed.
Print Assumptions C139_any_cmp.

(** ** C140: an ordered set *)
Lemma split_zero : forall A (cmp : A -> A -> Z) x l y r, sorted cmp (inorder (Node l y r)) -> comparison cmp -> cmp x y = 0 -> Forall (fun z => cmp x z > 0) (inorder l) /\ Forall (fun z => cmp x z < 0) (inorder r).
Proof. intros A cmp x l y r S C K. pose proof (sorted_signs cmp C x _ S) as G. cbn [inorder] in G. split; [eapply before_pos; eauto; lia|eapply after_neg; eauto; lia]. Qed.
(** SPLAY_FIND finds the element equal to its argument, if there is one. *)
Theorem C140_find : forall A (cmp : A -> A -> Z) x t, comparison cmp -> sorted cmp (inorder t) -> exists r t', splay_find cmp x t = Ok (r, t') /\ inorder t' = inorder t /\
  match r with Some y => In y (inorder t) /\ cmp x y = 0 | None => forall y, In y (inorder t) -> cmp x y <> 0 end.
Proof.
  intros A cmp x t C S. destruct t as [|l0 x0 r0]; [cbn; exists None, Leaf; repeat split; auto|]. set (t := Node l0 x0 r0) in *. cbn [splay_find t]. fold t. destruct (splay_ok A (cmp x) t ltac:(discriminate)) as (l & y & r & E & I & G). specialize (G (sorted_signs cmp C x _ S)). rewrite E. cbn [bind]. destruct (cmp x y =? 0) eqn:K.
  - do 2 eexists. split; [reflexivity|]. split; [exact I|]. split; [|lia]. rewrite <- I. cbn [inorder]. apply in_or_app. right. left. auto.
  - do 2 eexists. split; [reflexivity|]. split; [exact I|]. intros z Z. rewrite <- I in Z. cbn [inorder] in Z. destruct G as [G1 G2]. rewrite <- I in S. pose proof (sorted_signs cmp C x _ S) as Sg. cbn [inorder] in Sg. apply in_app_or in Z. destruct (Z_lt_ge_dec (cmp x y) 0) as [L|L].
    + specialize (G1 L). apply after_neg in Sg; [|lia]. rewrite Forall_forall in *. destruct Z as [Z|[<-|Z]]; [specialize (G1 z Z); lia|lia|specialize (Sg z Z); lia].
    + assert (P : cmp x y > 0) by lia. specialize (G2 P). apply before_pos in Sg; [|lia]. rewrite Forall_forall in *. destruct Z as [Z|[<-|Z]]; [specialize (Sg z Z); lia|lia|specialize (G2 z Z); lia].
Qed.
Print Assumptions C140_find.
(** SPLAY_INSERT puts an element at its place and returns NULL, or returns the equal element and changes nothing. *)
Theorem C140_insert : forall A (cmp : A -> A -> Z) x t, comparison cmp -> sorted cmp (inorder t) -> exists r t', splay_insert cmp x t = Ok (r, t') /\
  match r with
  | Some y => In y (inorder t) /\ cmp x y = 0 /\ inorder t' = inorder t
  | None => (forall y, In y (inorder t) -> cmp x y <> 0) /\ inorder t' = put cmp x (inorder t)
  end.
Proof.
  intros A cmp x t C S. destruct t as [|l0 x0 r0]; [cbn; exists None, (Node Leaf x Leaf); repeat split; auto|]. set (t := Node l0 x0 r0) in *. cbn [splay_insert t]. fold t. destruct (splay_ok A (cmp x) t ltac:(discriminate)) as (l & y & r & E & I & G). specialize (G (sorted_signs cmp C x _ S)). rewrite E. cbn [bind]. destruct G as [G1 G2].
  rewrite <- I in S |- *. pose proof (sorted_signs cmp C x _ S) as Sg. cbn [inorder] in Sg. destruct (cmp x y <? 0) eqn:K1; [|destruct (cmp x y >? 0) eqn:K2].
  - specialize (G1 ltac:(lia)). apply after_neg in Sg; [|lia]. do 2 eexists. split; [reflexivity|]. cbn [inorder app]. split.
    + rewrite Forall_forall in *. intros z Z. apply in_app_or in Z as [Z|[<-|Z]]; [specialize (G1 z Z); lia|lia|specialize (Sg z Z); lia].
    + rewrite put_app by auto. cbn [put]. rewrite K1. auto.
  - specialize (G2 ltac:(lia)). apply before_pos in Sg; [|lia]. do 2 eexists. split; [reflexivity|]. cbn [inorder app]. split.
    + rewrite Forall_forall in *. intros z Z. apply in_app_or in Z as [Z|[<-|Z]]; [specialize (Sg z Z); lia|lia|specialize (G2 z Z); lia].
    + rewrite put_app by auto. cbn [put]. rewrite K1. rewrite <- app_assoc. cbn [app]. f_equal. f_equal. destruct (inorder r) as [|z q] eqn:Q; [auto|]. cbn [put]. inversion G2; subst. replace (cmp x z <? 0) with true by lia. auto.
  - do 2 eexists. split; [reflexivity|]. split; [cbn [inorder]; apply in_or_app; right; left; auto|]. split; [lia|auto].
Qed.
Print Assumptions C140_insert.
(** SPLAY_REMOVE removes the element equal to its argument and returns the argument, or returns NULL and changes nothing. *)
Theorem C140_remove : forall A (cmp : A -> A -> Z) x t, comparison cmp -> sorted cmp (inorder t) -> exists r t', splay_remove cmp x t = Ok (r, t') /\
  inorder t' = without cmp x (inorder t) /\ match r with Some z => z = x /\ exists y, In y (inorder t) /\ cmp x y = 0 | None => forall y, In y (inorder t) -> cmp x y <> 0 end.
Proof.
  intros A cmp x t C S. destruct t as [|l0 x0 r0]; [cbn; exists None, Leaf; repeat split; auto|]. set (t := Node l0 x0 r0) in *. pose proof (C140_find A cmp x t C S) as (rf & tf & Ef & If & Hf). cbn [splay_remove splay_find t] in *. fold t in Ef |- *.
  destruct (splay_ok A (cmp x) t ltac:(discriminate)) as (l & y & r & E & I & G). rewrite E in *. cbn [bind] in *. destruct (cmp x y =? 0) eqn:K.
  - assert (S2 : sorted cmp (inorder (Node l y r))) by (rewrite I; auto). destruct (split_zero A cmp x l y r S2 C ltac:(lia)) as [FL FR]. assert (W : without cmp x (inorder t) = inorder l ++ inorder r).
    { rewrite <- I. cbn [inorder]. unfold without. rewrite filter_app. cbn [filter]. rewrite K. cbn [negb]. fold (without cmp x (inorder l)). fold (without cmp x (inorder r)). rewrite !without_nil; auto; (eapply Forall_mp; [eassumption|]; intros; cbn in *; lia). }
    rewrite W. assert (Ex : exists z, In z (inorder t) /\ cmp x z = 0) by (exists y; split; [rewrite <- I; cbn [inorder]; apply in_or_app; right; left; auto|lia]). destruct l as [|la lb lc].
    + do 2 eexists. split; [reflexivity|]. split; [auto|]. auto.
    + set (l := Node la lb lc) in *. destruct (splay_ok A (cmp x) l ltac:(discriminate)) as (ll & z & lr & E2 & I2 & G2). rewrite E2. cbn [bind]. do 2 eexists. split; [reflexivity|]. split; [|auto].
      assert (Sl : sorted cmp (inorder l)) by (unfold sorted in *; cbn [inorder] in S2; apply ss_node in S2; apply S2). destruct (G2 (sorted_signs cmp C x _ Sl)) as [_ G4]. rewrite <- I2 in FL |- *. cbn [inorder] in FL |- *. apply Forall_app in FL as [_ FL]. inversion FL as [|? ? Kz FL']; subst. specialize (G4 Kz).
      assert (Q : inorder lr = []); [|rewrite Q, <- app_assoc; auto]. destruct (inorder lr) as [|q m]; [auto|]. inversion G4; inversion FL'; subst. lia.
  - do 2 eexists. split; [reflexivity|]. assert (rf = None) as -> by congruence. split; [|exact Hf]. rewrite I. symmetry. apply without_nil. apply Forall_forall. exact Hf.
Qed.
Print Assumptions C140_remove.
(** SPLAY_MIN and SPLAY_MAX: the first and the last element, or NULL. *)
Theorem C140_min_max : forall A (t : tree A), (exists t', splay_min_max (-1) t = Ok (hd_error (inorder t), t') /\ inorder t' = inorder t) /\ (exists t', splay_min_max 1 t = Ok (hd_error (rev (inorder t)), t') /\ inorder t' = inorder t).
Proof.
  intros A t. destruct t as [|l0 x0 r0]; [cbn; split; eauto|]. set (t := Node l0 x0 r0) in *. cbn [splay_min_max t]. fold t. unfold splay_minmax. cbn [Z.eqb].
  assert (Sg : forall v, v < 0 -> signs (fun _ : A => v) (inorder t)) by (intros v V; generalize (inorder t); induction l as [|y l IH]; constructor; auto; apply Forall_forall; auto).
  assert (Sp : forall v, v > 0 -> signs (fun _ : A => v) (inorder t)) by (intros v V; generalize (inorder t); induction l as [|y l IH]; constructor; auto; apply Forall_forall; intros; lia). split.
  - destruct (splay_ok A (fun _ => -1) t ltac:(discriminate)) as (l & x & r & E & I & G). rewrite E. cbn [bind]. exists (Node l x r). split; [|exact I]. destruct (G (Sg (-1) ltac:(lia))) as [G1 _]. specialize (G1 ltac:(lia)). rewrite <- I. cbn [inorder]. destruct (inorder l) as [|q m]; [auto|]. inversion G1. lia.
  - destruct (splay_ok A (fun _ => 1) t ltac:(discriminate)) as (l & x & r & E & I & G). rewrite E. cbn [bind]. exists (Node l x r). split; [|exact I]. destruct (G (Sp 1 ltac:(lia))) as [_ G2]. specialize (G2 ltac:(lia)). rewrite <- I. cbn [inorder]. destruct (inorder r) as [|q m]; [rewrite rev_app_distr; auto|]. inversion G2. lia.
Qed.
Print Assumptions C140_min_max.
Lemma leftmost_hd : forall A (t : tree A), leftmost t = hd_error (inorder t).
Proof. induction t as [|l IHl x r _]; [auto|]. destruct l as [|a b c]; [auto|]. change (leftmost (Node (Node a b c) x r)) with (leftmost (Node a b c)). rewrite IHl. cbn [inorder]. destruct (inorder a); auto. Qed.
(** SPLAY_NEXT of an element of the tree: the element behind it, or NULL. *)
Theorem C140_next : forall A (cmp : A -> A -> Z) t a x b, comparison cmp -> sorted cmp (inorder t) -> inorder t = a ++ x :: b -> exists t', splay_next cmp x t = Ok (hd_error b, t') /\ inorder t' = inorder t.
Proof.
  intros A cmp t a x b C S H. destruct t as [|l0 x0 r0]; [destruct a; discriminate|]. set (t := Node l0 x0 r0) in *. unfold splay_next. destruct (splay_ok A (cmp x) t ltac:(discriminate)) as (l & y & r & E & I & G). rewrite E. cbn [bind].
  destruct (C140_find A cmp x t C S) as (rf & tf & Ef & If & Hf). cbn [splay_find t] in Ef. fold t in Ef. rewrite E in Ef. cbn [bind] in Ef. destruct (cmp x y =? 0) eqn:K.
  - exists (Node l y r). split; [|exact I]. rewrite leftmost_hd. f_equal. f_equal. f_equal. assert (Q : inorder l ++ y :: inorder r = a ++ x :: b) by (rewrite <- H, <- I; auto). rewrite <- I in S. destruct (split_zero A cmp x l y r S C ltac:(lia)) as [FL FR].
    assert (S2 : sorted cmp (a ++ x :: b)) by (rewrite <- Q; exact S). pose proof (sorted_signs cmp C x _ S2) as Sg. pose proof (cmp_self cmp C x) as Kx. assert (FA : Forall (fun z => cmp x z > 0) a) by (eapply before_pos; [exact Sg|lia]). assert (FB : Forall (fun z => cmp x z < 0) b) by (eapply after_neg; [exact Sg|lia]).
    clear - Q FL FA FB FR K Kx. revert a Q FA. generalize dependent (inorder l). intros m FL. induction m as [|q m IH]; intros [|p a] Q FA; cbn [app] in Q.
    + congruence.
    + injection Q as -> Q. inversion FA; subst. lia.
    + injection Q as -> Q. inversion FL; subst. lia.
    + injection Q as -> Q. inversion FL; inversion FA; subst. eapply IH; eauto.
  - exfalso. assert (rf = None) as -> by congruence. apply (Hf x); [rewrite H; apply in_or_app; right; left; auto|apply (cmp_self cmp C)].
Qed.
Print Assumptions C140_next.
(** SPLAY_FOREACH visits all elements in order. *)
Theorem C140_foreach : forall A (cmp : A -> A -> Z) t, comparison cmp -> sorted cmp (inorder t) -> exists t', splay_foreach cmp t = Ok (inorder t, t') /\ inorder t' = inorder t.
Proof.
  intros A cmp t C S. unfold splay_foreach. destruct (C140_min_max A t) as [(t1 & E & I) _]. rewrite E. cbn [bind].
  assert (G : forall b fuel u a, inorder u = a ++ b -> sorted cmp (inorder u) -> (length b <= fuel)%nat -> exists t', splay_from fuel cmp (hd_error b) u = Ok (b, t') /\ inorder t' = inorder u).
  { induction b as [|x b IH]; intros fuel u a H Su L; cbn [hd_error].
    - exists u. destruct fuel; auto.
    - destruct fuel as [|fuel]; [cbn in L; lia|]. cbn [splay_from]. destruct (C140_next A cmp u a x b C Su H) as (u2 & E2 & I2). rewrite E2. cbn [bind]. destruct (IH fuel u2 (a ++ [x])) as (u3 & E3 & I3); [rewrite I2, H, <- app_assoc; auto|rewrite I2; auto|cbn in L; lia|]. rewrite E3. cbn [bind]. exists u3. split; [auto|congruence]. }
  assert (Z : forall u : tree A, length (inorder u) = tsize u) by (induction u; cbn [inorder tsize length]; [auto|]; rewrite app_length; cbn [length]; lia).
  destruct (G (inorder t) (tsize t1) t1 [] I) as (t' & E2 & I2); [rewrite I; auto|rewrite <- Z, I; auto|]. exists t'. split; [exact E2|congruence].
Qed.
Print Assumptions C140_foreach.
(** After any history of operations the elements are in strictly increasing order. *)
Theorem C140_history : forall A (cmp : A -> A -> Z) t, comparison cmp -> built cmp t -> sorted cmp (inorder t).
Proof.
  intros A cmp t C B. induction B as [|t x r t' B IH E|t x r t' B IH E|t x r t' B IH E|t x r t' B IH E|t v r t' B IH E].
  - constructor.
  - destruct (C140_insert A cmp x t C IH) as (r2 & t2 & E2 & H). assert (r2 = r /\ t2 = t') as [-> ->] by (split; congruence). destruct r as [y|]; [destruct H as (_ & _ & ->); exact IH|]. destruct H as [H ->]. unfold sorted in *. clear - C IH H. induction (inorder t) as [|y l IHl]; cbn [put]; [repeat constructor|].
    inversion IH as [|? ? S F]; subst. destruct (cmp x y <? 0) eqn:K.
    + constructor; [exact IH|]. constructor; [lia|]. rewrite Forall_forall in *. intros z Z. specialize (F z Z). cbn in F. apply (lt_le cmp C x y z); lia.
    + assert (cmp y x < 0) by (apply (cmp_sym cmp C); specialize (H y (or_introl eq_refl)); lia). constructor; [apply IHl; auto; intros; apply H; right; auto|]. assert (P : forall z, In z (put cmp x l) -> z = x \/ In z l) by (clear; induction l as [|w l IHl]; cbn [put]; [intros z [<-|[]]; auto|]; destruct (cmp x w <? 0); [intros z [<-|Z]; auto|]; intros z [<-|Z]; [right; left; auto|]; destruct (IHl z Z); auto; right; right; auto).
      rewrite Forall_forall in *. intros z Z. apply P in Z as [->|Z]; auto.
  - destruct (C140_remove A cmp x t C IH) as (r2 & t2 & E2 & H & _). assert (t2 = t') as -> by congruence. rewrite H. unfold sorted, without in *. clear - IH. induction (inorder t) as [|y l IHl]; [constructor|]. inversion IH as [|? ? S F]; subst. cbn [filter]. destruct (negb (cmp x y =? 0)); [|auto]. constructor; [auto|]. rewrite Forall_forall in *. intros z Z. apply filter_In in Z as [Z _]. auto.
  - destruct (C140_find A cmp x t C IH) as (r2 & t2 & E2 & H & _). assert (t2 = t') as -> by congruence. rewrite H. exact IH.
  - unfold splay_next in E. destruct t as [|a b c]; [discriminate|]. destruct (splay_ok A (cmp x) (Node a b c) ltac:(discriminate)) as (l & y & r2 & E2 & I & _). rewrite E2 in E. cbn [bind] in E. destruct (cmp x y =? 0); [|discriminate]. assert (t' = Node l y r2) as -> by congruence. rewrite I. exact IH.
  - destruct t as [|a b c]; [cbn in E; injection E as <- <-; exact IH|]. cbn [splay_min_max] in E. unfold splay_minmax in E. destruct (v =? 0); [discriminate|]. destruct (splay_ok A (fun _ => v) (Node a b c) ltac:(discriminate)) as (l & y & r2 & E2 & I & _). rewrite E2 in E. cbn [bind] in E. assert (t' = Node l y r2) as -> by congruence. rewrite I. exact IH.
Qed.
Print Assumptions C140_history.
Lemma comparison_Z : comparison (fun x y : Z * Z => fst x - fst y). Proof. split; intros; lia. Qed.
Example C140_example : exists t, built (fun x y : Z * Z => fst x - fst y) t /\ inorder t = [(1, 0); (2, 0); (5, 0)].
Proof.
  eexists. split; [eapply (b_insert _ _ (2, 0)); [eapply (b_insert _ _ (5, 0)); [eapply (b_insert _ _ (1, 0)); [apply b_init|]|]|]; vm_compute; reflexivity|vm_compute; reflexivity].
Qed.

(** ** C141: SPLAY_REMOVE returns the element it removed *)
(** It returns its argument, which is not the element that was in the tree when this is another one with the same key. *)
Theorem C141_removed_refuted : forall A (cmp : A -> A -> Z) x y, comparison cmp -> cmp x y = 0 -> x <> y ->
  exists t t', built cmp t /\ In y (inorder t) /\ ~ In x (inorder t) /\ splay_remove cmp x t = Ok (Some x, t') /\ inorder t' = [].
Proof.
  intros A cmp x y C K N. exists (Node Leaf y Leaf), Leaf. split; [apply (b_insert cmp Leaf y None); [apply b_init|reflexivity]|]. split; [left; auto|]. split; [intros [H|[]]; congruence|]. unfold splay_remove, splay. cbn [tsize splay_loop]. rewrite K. cbn. rewrite K. cbn. auto.
Qed.
Print Assumptions C141_removed_refuted.
