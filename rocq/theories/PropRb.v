(** PropRb.v: C142-C144 (libmy/tree.h, red-black trees), for every comparison function, tree and history. *)
From Verif Require Import Base Lib ModelRb SpecRb PropSplay.
From Coq Require Import Sorted.

Fixpoint before {A} (p : list (frame A)) : list A := match p with [] => [] | InL _ _ _ :: p => before p | InR _ x l :: p => before p ++ elements l ++ [x] end.
Fixpoint after {A} (p : list (frame A)) : list A := match p with [] => [] | InL _ x r :: p => x :: elements r ++ after p | InR _ _ _ :: p => after p end.
Lemma zip_cons : forall A (t : rbt A) f p, zip t (f :: p) = zip (up t f) p. Proof. reflexivity. Qed.
Lemma zip_app : forall A (q p : list (frame A)) t, zip t (q ++ p) = zip (zip t q) p. Proof. intros. unfold zip. apply fold_left_app. Qed.
Ltac norm := repeat (progress (cbn [app elements before after] in *; rewrite <- ?app_assoc, ?app_nil_r in *)).
Lemma elements_zip : forall A (p : list (frame A)) t, elements (zip t p) = before p ++ elements t ++ after p.
Proof. induction p as [|[c x r|c x l] p IH]; intros t; [cbn; rewrite app_nil_r; auto| |]; rewrite zip_cons, IH; cbn [up]; norm; auto. Qed.
Lemma before_app : forall A (q p : list (frame A)), before (q ++ p) = before p ++ before q.
Proof. induction q as [|[c x r|c x l] q IH]; intros p; cbn [app before]; [rewrite app_nil_r; auto|auto|]. rewrite IH, <- !app_assoc. auto. Qed.
Lemma after_app : forall A (q p : list (frame A)), after (q ++ p) = after q ++ after p.
Proof. induction q as [|[c x r|c x l] q IH]; intros p; cbn [app after]; [auto| |auto]. rewrite IH, <- !app_assoc. auto. Qed.
Lemma elements_blacken : forall A (t : rbt A), elements (blacken t) = elements t. Proof. intros A [|c l x r]; auto. Qed.

(** A path with a place for a subtree with [n] black nodes on every way down. *)
Definition top_black {A} (p : list (frame A)) : Prop := match p with [] => False | f :: _ => fcolor f = Black end.
Inductive ctx {A} : list (frame A) -> nat -> Prop :=
| c_nil : forall n, ctx [] n
| c_blackL : forall c x r p n, colored c n r -> ctx p (S n) -> ctx (InL Black x r :: p) n
| c_blackR : forall c x l p n, colored c n l -> ctx p (S n) -> ctx (InR Black x l :: p) n
| c_redL : forall x r p n, colored Black n r -> ctx p n -> top_black p -> ctx (InL Red x r :: p) n
| c_redR : forall x l p n, colored Black n l -> ctx p n -> top_black p -> ctx (InR Red x l :: p) n.
Lemma zip_colored : forall A (p : list (frame A)) t c n, colored c n t -> ctx p n -> (c = Red -> top_black p) -> redblack (zip t p).
Proof.
  induction p as [|f p IH]; intros t c n K C T.
  - destruct c; [destruct (T eq_refl)|]. exists n. exact K.
  - rewrite zip_cons. inversion C as [|c0 x r p0 n0 K0 C0|c0 x l p0 n0 K0 C0|x r p0 n0 K0 C0 T0|x l p0 n0 K0 C0 T0]; subst; cbn [up].
    + eapply IH; [eapply k_black; eauto|eauto|discriminate].
    + eapply IH; [eapply k_black; eauto|eauto|discriminate].
    + destruct c; [specialize (T eq_refl); discriminate|]. eapply IH; [eapply k_red; eauto|eauto|auto].
    + destruct c; [specialize (T eq_refl); discriminate|]. eapply IH; [eapply k_red; eauto|eauto|auto].
Qed.
Lemma unzip : forall A (p : list (frame A)) t, redblack (zip t p) -> exists c n, colored c n t /\ ctx p n /\ (c = Red -> top_black p).
Proof.
  induction p as [|f p IH]; intros t R.
  - destruct R as [n K]. exists Black, n. split; [exact K|]. split; [constructor|discriminate].
  - rewrite zip_cons in R. apply IH in R as (c & n & K & C & T). destruct f as [c0 x r|c0 x l]; cbn [up] in K; inversion K; subst.
    + exists Black, n. split; [auto|]. split; [apply c_redL; auto|discriminate].
    + eexists _, _. split; [eauto|]. split; [eapply c_blackL; eauto|reflexivity].
    + exists Black, n. split; [auto|]. split; [apply c_redR; auto|discriminate].
    + eexists _, _. split; [eauto|]. split; [eapply c_blackR; eauto|reflexivity].
Qed.
Lemma not_red : forall A (t : rbt A) c n, colored c n t -> is_red t = false -> c = Black. Proof. intros A t c n K R. destruct K; auto. discriminate. Qed.
Lemma blacken_same : forall A (t : rbt A), redblack t -> blacken t = t. Proof. intros A t [n K]. inversion K; auto. Qed.
Lemma blacken_black : forall A (t : rbt A) c n, colored c n t -> exists m, colored Black m (blacken t). Proof. intros A t c n K. destruct K; cbn [blacken]; eexists; econstructor; eauto. Qed.
Lemma blacken_red : forall A (t : rbt A) c n, colored c n t -> is_red t = true -> colored Black (S n) (blacken t). Proof. intros A t c n K R. destruct K; try discriminate. cbn [blacken]. econstructor; eauto. Qed.
Lemma blacken_zip : forall A (p : list (frame A)) t c n, colored c n t -> ctx p n -> (c = Red -> top_black p) -> redblack (blacken (zip t p)) /\ elements (blacken (zip t p)) = before p ++ elements t ++ after p.
Proof. intros A p t c n K C T. pose proof (zip_colored A p t c n K C T) as R. rewrite blacken_same by auto. split; [auto|apply elements_zip]. Qed.

(** ** Insertion *)
Lemma insert_color_ok : forall A k (p : list (frame A)) n l x r, (length p < k)%nat -> ctx p n -> colored Black n l -> colored Black n r ->
  exists t', insert_color (N Red l x r) p = Ok t' /\ redblack t' /\ elements t' = before p ++ elements (N Red l x r) ++ after p.
Proof.
  intros A. induction k as [|k IH]; intros p n l x r Lk C Kl Kr; [lia|]. destruct p as [|f p1].
  - cbn [insert_color]. eexists. split; [reflexivity|]. split; [exists (S n); cbn [blacken]; econstructor; eauto|cbn; rewrite app_nil_r; auto].
  - inversion C as [|c0 x0 r0 p0 n0 K0 C0|c0 x0 l0 p0 n0 K0 C0|x0 r0 p0 n0 K0 C0 T0|x0 l0 p0 n0 K0 C0 T0]; subst; cbn [insert_color fcolor].
    + eexists. split; [reflexivity|]. eapply blacken_zip; [constructor; eauto|exact C|reflexivity].
    + eexists. split; [reflexivity|]. eapply blacken_zip; [constructor; eauto|exact C|reflexivity].
    + destruct p1 as [|g p2]; [destruct T0|]. cbn [length] in Lk. inversion C0 as [|c1 x1 r1 p1 n1 K1 C1|c1 x1 l1 p1 n1 K1 C1|x1 r1 p1 n1 K1 C1 T1|x1 l1 p1 n1 K1 C1 T1]; subst; cbn [top_black fcolor] in T0; try discriminate.
      * destruct (is_red r1) eqn:U.
        { destruct (IH p2 (S n) (N Black (N Red l x r) x0 r0) x1 (blacken r1) ltac:(lia) C1) as (t' & E & R & I); [econstructor; [constructor; eauto|eauto]|eapply blacken_red; eauto|]. exists t'. split; [exact E|]. split; [exact R|]. rewrite I. cbn [elements]. rewrite elements_blacken. norm. auto. }
        { assert (c1 = Black) as -> by (eapply not_red; eauto). eexists. split; [reflexivity|]. destruct (blacken_zip A p2 (N Black (N Red l x r) x0 (N Red r0 x1 r1)) Black (S n)) as [R I]; [econstructor; constructor; eauto|exact C1|discriminate|]. split; [exact R|]. rewrite I. norm. auto. }
      * destruct (is_red l1) eqn:U.
        { destruct (IH p2 (S n) (blacken l1) x1 (N Black (N Red l x r) x0 r0) ltac:(lia) C1) as (t' & E & R & I); [eapply blacken_red; eauto|econstructor; [constructor; eauto|eauto]|]. exists t'. split; [exact E|]. split; [exact R|]. rewrite I. cbn [elements]. rewrite elements_blacken. norm. auto. }
        { assert (c1 = Black) as -> by (eapply not_red; eauto). eexists. split; [reflexivity|]. destruct (blacken_zip A p2 (N Black (N Red l1 x1 l) x (N Red r x0 r0)) Black (S n)) as [R I]; [econstructor; constructor; eauto|exact C1|discriminate|]. split; [exact R|]. rewrite I. norm. auto. }
    + destruct p1 as [|g p2]; [destruct T0|]. cbn [length] in Lk. inversion C0 as [|c1 x1 r1 p1 n1 K1 C1|c1 x1 l1 p1 n1 K1 C1|x1 r1 p1 n1 K1 C1 T1|x1 l1 p1 n1 K1 C1 T1]; subst; cbn [top_black fcolor] in T0; try discriminate.
      * destruct (is_red r1) eqn:U.
        { destruct (IH p2 (S n) (N Black l0 x0 (N Red l x r)) x1 (blacken r1) ltac:(lia) C1) as (t' & E & R & I); [econstructor; [eauto|constructor; eauto]|eapply blacken_red; eauto|]. exists t'. split; [exact E|]. split; [exact R|]. rewrite I. cbn [elements]. rewrite elements_blacken. norm. auto. }
        { assert (c1 = Black) as -> by (eapply not_red; eauto). eexists. split; [reflexivity|]. destruct (blacken_zip A p2 (N Black (N Red l0 x0 l) x (N Red r x1 r1)) Black (S n)) as [R I]; [econstructor; constructor; eauto|exact C1|discriminate|]. split; [exact R|]. rewrite I. norm. auto. }
      * destruct (is_red l1) eqn:U.
        { destruct (IH p2 (S n) (blacken l1) x1 (N Black l0 x0 (N Red l x r)) ltac:(lia) C1) as (t' & E & R & I); [eapply blacken_red; eauto|econstructor; [eauto|constructor; eauto]|]. exists t'. split; [exact E|]. split; [exact R|]. rewrite I. cbn [elements]. rewrite elements_blacken. norm. auto. }
        { assert (c1 = Black) as -> by (eapply not_red; eauto). eexists. split; [reflexivity|]. destruct (blacken_zip A p2 (N Black (N Red l1 x1 l0) x0 (N Red l x r)) Black (S n)) as [R I]; [econstructor; constructor; eauto|exact C1|discriminate|]. split; [exact R|]. rewrite I. norm. auto. }
Qed.
Lemma insert_at_ok : forall A (cmp : A -> A -> Z) x t p c n, colored c n t -> ctx p n -> (c = Red -> top_black p) ->
  exists o t', insert_at cmp x t p = Ok (o, t') /\ redblack t' /\
  match o with
  | Some y => In y (elements (zip t p)) /\ cmp x y = 0 /\ t' = zip t p
  | None => exists a b, elements (zip t p) = a ++ b /\ elements t' = a ++ x :: b /\
            (signs (cmp x) (elements (zip t p)) -> Forall (fun y => cmp x y > 0) (before p) -> Forall (fun y => cmp x y < 0) (after p) -> Forall (fun y => cmp x y > 0) a /\ Forall (fun y => cmp x y < 0) b)
  end.
Proof.
  intros A cmp x. induction t as [|c1 l IHl y r IHr]; intros p c n K C T; cbn [insert_at].
  - inversion K; subst. destruct (insert_color_ok A (S (length p)) p 0 L x L ltac:(lia) C ltac:(constructor) ltac:(constructor)) as (t' & E & R & I). rewrite E. cbn [bind]. exists None, t'. split; [auto|]. split; [exact R|]. exists (before p), (after p). rewrite elements_zip. split; [auto|]. split; [rewrite I; auto|]. auto.
  - destruct (cmp x y <? 0) eqn:K1; [|destruct (cmp x y >? 0) eqn:K2].
    + assert (P : exists c2 n2, colored c2 n2 l /\ ctx (InL c1 y r :: p) n2 /\ (c2 = Red -> top_black (InL c1 y r :: p))).
      { inversion K; subst; [exists Black, n; split; [auto|]; split; [apply c_redL; auto|discriminate]|eexists _, _; split; [eauto|]; split; [eapply c_blackL; eauto|reflexivity]]. }
      destruct P as (c2 & n2 & Kl & Cl & Tl). destruct (IHl _ _ _ Kl Cl Tl) as (o & t' & E & R & H). exists o, t'. split; [exact E|]. split; [exact R|]. destruct o as [z|]; [exact H|]. destruct H as (a & b & H1 & H2 & H3). exists a, b. split; [exact H1|]. split; [exact H2|]. intros S B F. apply H3; [exact S|exact B|]. cbn [after]. constructor; [lia|]. apply Forall_app. split; [|exact F].
      rewrite elements_zip in S. cbn [elements] in S. replace (before p ++ (elements l ++ y :: elements r) ++ after p) with ((before p ++ elements l) ++ y :: (elements r ++ after p)) in S by (norm; auto). apply after_neg in S; [|lia]. apply Forall_app in S as [S _]. exact S.
    + assert (P : exists c2 n2, colored c2 n2 r /\ ctx (InR c1 y l :: p) n2 /\ (c2 = Red -> top_black (InR c1 y l :: p))).
      { inversion K; subst; [exists Black, n; split; [auto|]; split; [apply c_redR; auto|discriminate]|eexists _, _; split; [eauto|]; split; [eapply c_blackR; eauto|reflexivity]]. }
      destruct P as (c2 & n2 & Kl & Cl & Tl). destruct (IHr _ _ _ Kl Cl Tl) as (o & t' & E & R & H). exists o, t'. split; [exact E|]. split; [exact R|]. destruct o as [z|]; [exact H|]. destruct H as (a & b & H1 & H2 & H3). exists a, b. split; [exact H1|]. split; [exact H2|]. intros S B F. apply H3; [exact S| |exact F]. cbn [before]. apply Forall_app. split; [exact B|]. apply Forall_app. split; [|constructor; [lia|constructor]].
      rewrite elements_zip in S. cbn [elements] in S. replace (before p ++ (elements l ++ y :: elements r) ++ after p) with ((before p ++ elements l) ++ y :: (elements r ++ after p)) in S by (norm; auto). apply before_pos in S; [|lia]. apply Forall_app in S as [_ S]. exact S.
    + exists (Some y), (zip (N c1 l y r) p). split; [auto|]. split; [eapply zip_colored; eauto|]. split; [rewrite elements_zip; cbn [elements]; apply in_or_app; right; apply in_or_app; left; apply in_or_app; right; left; auto|]. split; [lia|auto].
Qed.

(** ** Removal *)
Definition hole {A} (p : list (frame A)) (cp : color) (n : nat) : Prop := ctx p (match cp with Red => S n | Black => S (S n) end) /\ (cp = Red -> top_black p).
Definition left_body {A} (fuel : nat) (t : rbt A) (cp : color) (x : A) (s : rbt A) (p1 : list (frame A)) : outcome (rbt A) :=
  match s with
  | L => UB NullDeref
  | N _ sl y sr =>
      if negb (is_red sl) && negb (is_red sr) then remove_color fuel (N cp t x (N Red sl y sr)) p1
      else
        '(sl, y, sr) <- (if negb (is_red sr) then match sl with L => UB NullDeref | N _ a z b => Ok (a, z, N Red b y sr) end else Ok (sl, y, sr)) ;;
        Ok (blacken (zip (N cp (N Black t x sl) y (blacken sr)) p1))
  end.
Definition right_body {A} (fuel : nat) (t : rbt A) (cp : color) (x : A) (s : rbt A) (p1 : list (frame A)) : outcome (rbt A) :=
  match s with
  | L => UB NullDeref
  | N _ sl y sr =>
      if negb (is_red sl) && negb (is_red sr) then remove_color fuel (N cp (N Red sl y sr) x t) p1
      else
        '(sl, y, sr) <- (if negb (is_red sl) then match sr with L => UB NullDeref | N _ a z b => Ok (N Red sl y a, z, b) end else Ok (sl, y, sr)) ;;
        Ok (blacken (zip (N cp (blacken sl) y (N Black sr x t)) p1))
  end.
(** The result of a rebalancing: the tree, or the fuel is not enough. *)
Definition fine {A} (o : outcome (rbt A)) (els : list A) (fuel need : nat) : Prop :=
  match o with Ok t' => redblack t' /\ elements t' = els | NoFuel => (fuel < need)%nat | _ => False end.
Lemma remove_red : forall A fuel (t : rbt A) p c n, colored c n t -> is_red t = true -> ctx p (S n) -> fine (remove_color fuel t p) (before p ++ elements t ++ after p) fuel 1.
Proof.
  intros A fuel t p c n K R C. destruct fuel as [|fuel]; cbn [remove_color]; [cbn; lia|]. rewrite R. cbn [fine]. split; [eapply zip_colored; [eapply blacken_red; eauto|exact C|discriminate]|]. rewrite elements_zip, elements_blacken. auto.
Qed.
Lemma left_ok : forall A fuel need (t : rbt A) cp x s p1 n, colored Black n t -> colored Black (S n) s -> hole p1 cp n -> (1 <= need)%nat ->
  (forall t2, cp = Black -> colored Black (S n) t2 -> fine (remove_color fuel t2 p1) (before p1 ++ elements t2 ++ after p1) fuel need) ->
  fine (left_body fuel t cp x s p1) (before p1 ++ (elements t ++ x :: elements s) ++ after p1) fuel need.
Proof.
  intros A fuel need t cp x s p1 n Kt Ks [H T] Nd IH. inversion Ks as [| |cl cr m sl y sr Kl Kr]; subst. cbn [left_body]. destruct (is_red sl) eqn:Rl, (is_red sr) eqn:Rr; cbn [negb andb].
  - cbn [bind fine]. destruct (blacken_zip A p1 (N cp (N Black t x sl) y (blacken sr)) cp (match cp with Red => S n | Black => S (S n) end)) as [R E]; [destruct cp; [apply k_red|eapply k_black]; try (econstructor; eauto); eapply blacken_red; eauto|exact H|exact T|]. split; [exact R|]. rewrite E. cbn [elements]. rewrite elements_blacken. norm. auto.
  - destruct sl as [|[|] a z b]; try discriminate. inversion Kl; subst. assert (cr = Black) as -> by (eapply not_red; eauto). cbn [bind fine]. destruct (blacken_zip A p1 (N cp (N Black t x a) z (blacken (N Red b y sr))) cp (match cp with Red => S n | Black => S (S n) end)) as [R E]; [cbn [blacken]; destruct cp; econstructor; econstructor; eauto|exact H|exact T|]. split; [exact R|]. rewrite E. cbn [elements blacken]. norm. auto.
  - cbn [bind fine]. destruct (blacken_zip A p1 (N cp (N Black t x sl) y (blacken sr)) cp (match cp with Red => S n | Black => S (S n) end)) as [R E]; [destruct cp; [apply k_red|eapply k_black]; try (econstructor; eauto); eapply blacken_red; eauto|exact H|exact T|]. split; [exact R|]. rewrite E. cbn [elements]. rewrite elements_blacken. norm. auto.
  - assert (cl = Black) as -> by (eapply not_red; eauto). assert (cr = Black) as -> by (eapply not_red; eauto). set (t2 := N cp t x (N Red sl y sr)). assert (Et : elements t2 = elements t ++ x :: elements (N Black sl y sr)) by reflexivity. rewrite <- Et. destruct cp.
    + (* parent was red: it becomes black *)
      destruct fuel as [|fuel]; cbn [remove_color]; [cbn; lia|]. change (is_red t2) with true. cbv iota. cbn [fine]. split; [|rewrite elements_zip, elements_blacken; auto]. eapply (zip_colored _ _ _ Black); [|exact H|discriminate]. cbn [blacken t2]. econstructor; [exact Kt|constructor; eauto].
    + apply IH; [auto|]. econstructor; [exact Kt|constructor; eauto].
Qed.
Lemma right_ok : forall A fuel need (t : rbt A) cp x s p1 n, colored Black n t -> colored Black (S n) s -> hole p1 cp n -> (1 <= need)%nat ->
  (forall t2, cp = Black -> colored Black (S n) t2 -> fine (remove_color fuel t2 p1) (before p1 ++ elements t2 ++ after p1) fuel need) ->
  fine (right_body fuel t cp x s p1) (before p1 ++ (elements s ++ x :: elements t) ++ after p1) fuel need.
Proof.
  intros A fuel need t cp x s p1 n Kt Ks [H T] Nd IH. inversion Ks as [| |cl cr m sl y sr Kl Kr]; subst. cbn [right_body]. destruct (is_red sl) eqn:Rl, (is_red sr) eqn:Rr; cbn [negb andb].
  - cbn [bind fine]. destruct (blacken_zip A p1 (N cp (blacken sl) y (N Black sr x t)) cp (match cp with Red => S n | Black => S (S n) end)) as [R E]; [destruct cp; [apply k_red|eapply k_black]; try (econstructor; eauto); eapply blacken_red; eauto|exact H|exact T|]. split; [exact R|]. rewrite E. cbn [elements]. rewrite elements_blacken. norm. auto.
  - cbn [bind fine]. destruct (blacken_zip A p1 (N cp (blacken sl) y (N Black sr x t)) cp (match cp with Red => S n | Black => S (S n) end)) as [R E]; [destruct cp; [apply k_red|eapply k_black]; try (econstructor; eauto); eapply blacken_red; eauto|exact H|exact T|]. split; [exact R|]. rewrite E. cbn [elements]. rewrite elements_blacken. norm. auto.
  - destruct sr as [|[|] a z b]; try discriminate. inversion Kr; subst. assert (cl = Black) as -> by (eapply not_red; eauto). cbn [bind fine]. destruct (blacken_zip A p1 (N cp (blacken (N Red sl y a)) z (N Black b x t)) cp (match cp with Red => S n | Black => S (S n) end)) as [R E]; [cbn [blacken]; destruct cp; econstructor; econstructor; eauto|exact H|exact T|]. split; [exact R|]. rewrite E. cbn [elements blacken]. norm. auto.
  - assert (cl = Black) as -> by (eapply not_red; eauto). assert (cr = Black) as -> by (eapply not_red; eauto). set (t2 := N cp (N Red sl y sr) x t). assert (Et : elements t2 = elements (N Black sl y sr) ++ x :: elements t) by reflexivity. rewrite <- Et. destruct cp.
    + destruct fuel as [|fuel]; cbn [remove_color]; [cbn; lia|]. change (is_red t2) with true. cbv iota. cbn [fine]. split; [|rewrite elements_zip, elements_blacken; auto]. eapply (zip_colored _ _ _ Black); [|exact H|discriminate]. cbn [blacken t2]. econstructor; [constructor; eauto|exact Kt].
    + apply IH; [auto|]. econstructor; [constructor; eauto|exact Kt].
Qed.
Lemma fine_more : forall A (o : outcome (rbt A)) els fuel need need', fine o els fuel need -> (need <= need')%nat -> fine o els (S fuel) (S need').
Proof. intros A o els fuel need need' F L. destruct o; cbn [fine] in *; auto. lia. Qed.
Lemma remove_color_ok : forall A fuel (p : list (frame A)) t c n, colored c n t -> ctx p (S n) -> fine (remove_color fuel t p) (before p ++ elements t ++ after p) fuel (length p + 2).
Proof.
  intros A. induction fuel as [|fuel IH]; intros p t c n K C; [cbn; lia|]. destruct (is_red t) eqn:R.
  { pose proof (remove_red A (S fuel) t p c n K R C) as F. destruct (remove_color (S fuel) t p); cbn [fine] in *; auto. lia. }
  assert (c = Black) as -> by (eapply not_red; eauto). destruct p as [|f p1].
  { cbn [remove_color]. rewrite R. cbn [fine]. split; [destruct (blacken_black A t Black n K) as [m Hm]; exists m; exact Hm|]. rewrite elements_blacken. cbn. rewrite app_nil_r. auto. }
  cbn [length].
  assert (Rb : forall (cp : color) (p2 : list (frame A)) m, hole p2 cp n -> (length p2 <= m)%nat -> forall t2 : rbt A, cp = Black -> colored Black (S n) t2 -> fine (remove_color fuel t2 p2) (before p2 ++ elements t2 ++ after p2) fuel (m + 2)).
  { intros cp p2 m [H _] Lm t2 -> K2. pose proof (IH p2 t2 Black (S n) K2 H) as F. destruct (remove_color fuel t2 p2); cbn [fine] in *; auto. lia. }
  inversion C as [|c0 x r p0 n0 K0 C0|c0 x l p0 n0 K0 C0|x r p0 n0 K0 C0 T0|x l p0 n0 K0 C0 T0]; subst.
  - assert (E : remove_color (S fuel) t (InL Black x r :: p1) = match r with L => UB NullDeref | N Red sl y sr => left_body fuel t Red x sl (InL Black y sr :: p1) | N Black _ _ _ => left_body fuel t Black x r p1 end) by (cbn [remove_color]; rewrite R; destruct r as [|[|] a b d]; reflexivity). rewrite E. cbn [before after]. destruct r as [|[|] sl y sr]; [inversion K0| |].
    + inversion K0; subst. assert (Hh : hole (InL Black y sr :: p1) Red n) by (split; [eapply c_blackL; eauto|reflexivity]). pose proof (left_ok A fuel (length p1 + 2) t Red x sl (InL Black y sr :: p1) n K ltac:(assumption) Hh ltac:(lia) ltac:(intros; discriminate)) as F.
      apply (fine_more A _ _ _ _ (length p1 + 2)) in F; [|lia]. replace (before p1 ++ elements t ++ x :: elements (N Red sl y sr) ++ after p1) with (before (InL Black y sr :: p1) ++ (elements t ++ x :: elements sl) ++ after (InL Black y sr :: p1)) by (norm; auto). exact F.
    + assert (c0 = Black) as -> by (inversion K0; auto). assert (Hh : hole p1 Black n) by (split; [exact C0|discriminate]). pose proof (left_ok A fuel (length p1 + 2) t Black x (N Black sl y sr) p1 n K K0 Hh ltac:(lia) (Rb Black p1 (length p1) Hh ltac:(lia))) as F.
      apply (fine_more A _ _ _ _ (length p1 + 2)) in F; [|lia]. replace (before p1 ++ elements t ++ x :: elements (N Black sl y sr) ++ after p1) with (before p1 ++ (elements t ++ x :: elements (N Black sl y sr)) ++ after p1) by (norm; auto). exact F.
  - assert (E : remove_color (S fuel) t (InR Black x l :: p1) = match l with L => UB NullDeref | N Red sl y sr => right_body fuel t Red x sr (InR Black y sl :: p1) | N Black _ _ _ => right_body fuel t Black x l p1 end) by (cbn [remove_color]; rewrite R; destruct l as [|[|] a b d]; reflexivity). rewrite E. cbn [before after]. destruct l as [|[|] sl y sr]; [inversion K0| |].
    + inversion K0; subst. assert (Hh : hole (InR Black y sl :: p1) Red n) by (split; [eapply c_blackR; eauto|reflexivity]). pose proof (right_ok A fuel (length p1 + 2) t Red x sr (InR Black y sl :: p1) n K ltac:(assumption) Hh ltac:(lia) ltac:(intros; discriminate)) as F.
      apply (fine_more A _ _ _ _ (length p1 + 2)) in F; [|lia]. replace ((before p1 ++ elements (N Red sl y sr) ++ [x]) ++ elements t ++ after p1) with (before (InR Black y sl :: p1) ++ (elements sr ++ x :: elements t) ++ after (InR Black y sl :: p1)) by (norm; auto). exact F.
    + assert (c0 = Black) as -> by (inversion K0; auto). assert (Hh : hole p1 Black n) by (split; [exact C0|discriminate]). pose proof (right_ok A fuel (length p1 + 2) t Black x (N Black sl y sr) p1 n K K0 Hh ltac:(lia) (Rb Black p1 (length p1) Hh ltac:(lia))) as F.
      apply (fine_more A _ _ _ _ (length p1 + 2)) in F; [|lia]. replace ((before p1 ++ elements (N Black sl y sr) ++ [x]) ++ elements t ++ after p1) with (before p1 ++ (elements (N Black sl y sr) ++ x :: elements t) ++ after p1) by (norm; auto). exact F.
  - inversion K0 as [| |cl cr m sl y sr Kl Kr]; subst. assert (E : remove_color (S fuel) t (InL Red x (N Black sl y sr) :: p1) = left_body fuel t Red x (N Black sl y sr) p1) by (cbn [remove_color]; rewrite R; reflexivity). rewrite E. cbn [before after].
    assert (Hh : hole p1 Red n) by (split; auto). pose proof (left_ok A fuel (length p1 + 2) t Red x (N Black sl y sr) p1 n K K0 Hh ltac:(lia) ltac:(intros; discriminate)) as F. apply (fine_more A _ _ _ _ (length p1 + 2)) in F; [|lia]. replace (before p1 ++ elements t ++ x :: elements (N Black sl y sr) ++ after p1) with (before p1 ++ (elements t ++ x :: elements (N Black sl y sr)) ++ after p1) by (norm; auto). exact F.
  - inversion K0 as [| |cl cr m sl y sr Kl Kr]; subst. assert (E : remove_color (S fuel) t (InR Red x (N Black sl y sr) :: p1) = right_body fuel t Red x (N Black sl y sr) p1) by (cbn [remove_color]; rewrite R; reflexivity). rewrite E. cbn [before after].
    assert (Hh : hole p1 Red n) by (split; auto). pose proof (right_ok A fuel (length p1 + 2) t Red x (N Black sl y sr) p1 n K K0 Hh ltac:(lia) ltac:(intros; discriminate)) as F. apply (fine_more A _ _ _ _ (length p1 + 2)) in F; [|lia]. replace ((before p1 ++ elements (N Black sl y sr) ++ [x]) ++ elements t ++ after p1) with (before p1 ++ (elements (N Black sl y sr) ++ x :: elements t) ++ after p1) by (norm; auto). exact F.
Qed.
Lemma recolor_ok : forall A fuel (t : rbt A) p c m n, colored m n t -> (c = Red -> m = Black /\ ctx p n) -> (c = Black -> ctx p (S n)) -> fine (recolor fuel c t p) (before p ++ elements t ++ after p) fuel (length p + 2).
Proof.
  intros A fuel t p c m n K Hr Hb. destruct c; cbn [recolor].
  - destruct (Hr eq_refl) as [-> C]. cbn [fine]. split; [eapply zip_colored; eauto; discriminate|apply elements_zip].
  - eapply remove_color_ok; eauto.
Qed.
Lemma first_node_ok : forall A (l : rbt A) c x r p c2 y child q, first_node c l x r p = (c2, y, child, q) -> zip (N c2 L y child) q = zip (N c l x r) p /\ before q = before p /\ (length q <= length p + height l)%nat.
Proof.
  intros A. induction l as [|cl ll IH lx lr _]; intros c x r p c2 y child q E; cbn [first_node] in E.
  - injection E as <- <- <- <-. cbn. split; [auto|split; [auto|lia]].
  - apply IH in E as (E1 & E2 & E3). rewrite E1, E2. split; [reflexivity|]. split; [reflexivity|]. cbn [length height] in *. lia.
Qed.
Lemma ctx_subst : forall A (q : list (frame A)) c x y l p n, ctx (q ++ InR c x l :: p) n -> ctx (q ++ InR c y l :: p) n.
Proof.
  intros A. induction q as [|f q IH]; intros c x y l p n C; cbn [app] in *.
  - inversion C; subst; [eapply c_blackR; eauto|eapply c_redR; eauto].
  - inversion C as [|c0 x0 r0 p0 n0 K0 C0|c0 x0 l0 p0 n0 K0 C0|x0 r0 p0 n0 K0 C0 T0|x0 l0 p0 n0 K0 C0 T0]; subst; [eapply c_blackL; eauto|eapply c_blackR; eauto|apply c_redL|apply c_redR]; eauto; destruct q; exact T0.
Qed.
Lemma rb_remove_ok : forall A fuel (t : rbt A) c l x r p, redblack t -> node_of t c l x r p -> fine (rb_remove fuel c l x r p) ((before p ++ elements l) ++ elements r ++ after p) fuel (length p + height r + 3).
Proof.
  intros A fuel t c l x r p R Nd. unfold node_of in Nd. subst t. pose proof (unzip A p _ R) as (m & n & K & C & T).
  assert (M : forall o els need need', fine (A:=A) o els fuel need -> (need <= need')%nat -> fine o els fuel need') by (intros o els need need' F L; destruct o; cbn [fine] in *; auto; lia).
  destruct l as [|cl ll lx lr] eqn:El; [|destruct r as [|cr rl rx rr] eqn:Er]; cbn [rb_remove].
  - norm. inversion K; subst.
    + eapply M; [eapply (recolor_ok A fuel r p Red Black n); auto; discriminate|lia].
    + eapply M; [eapply (recolor_ok A fuel r p Black cr n0); eauto; discriminate|lia].
  - rewrite <- El in *. cbn [elements app]. rewrite <- app_assoc. inversion K; subst.
    + eapply M; [eapply (recolor_ok A fuel _ p Red Black n); auto; discriminate|lia].
    + eapply M; [eapply (recolor_ok A fuel _ p Black cl0 n0); eauto; discriminate|lia].
  - rewrite <- El, <- Er in *. destruct (first_node cr rl rx rr []) as [[[c2 y] child] q] eqn:F. apply first_node_ok in F as (Z & B & Lq). cbn [zip fold_left before] in Z, B. rewrite <- Er in Z.
    assert (R2 : redblack (zip (N c2 L y child) (q ++ InR c x l :: p))) by (rewrite zip_app, Z; exact R). apply unzip in R2 as (m2 & n2 & K2 & C2 & T2). apply (ctx_subst A q c x y l p n2) in C2.
    assert (Q : elements r = y :: elements child ++ after q) by (rewrite <- Z, elements_zip, B; reflexivity).
    assert (G : fine (recolor fuel c2 child (q ++ InR c y l :: p)) (before (q ++ InR c y l :: p) ++ elements child ++ after (q ++ InR c y l :: p)) fuel (length (q ++ InR c y l :: p) + 2)).
    { inversion K2; subst; [eapply (recolor_ok A fuel child _ Red Black n2); auto; discriminate|eapply (recolor_ok A fuel child _ Black cr0 n0); eauto; discriminate]. }
    rewrite before_app, after_app, B in G. cbn [before after] in G. rewrite Q. norm. eapply M; [exact G|]. rewrite app_length. cbn [length] in *. rewrite Er. cbn [height]. lia.
Qed.

(** ** C142: the trees stay balanced *)
(** Whatever the comparison function says: inserting into a red-black tree ends, follows no NULL pointer and gives a red-black tree. *)
Theorem C142_insert : forall A (cmp : A -> A -> Z) x t, redblack t -> exists o t', rb_insert cmp x t = Ok (o, t') /\ redblack t' /\
  match o with Some y => In y (elements t) /\ cmp x y = 0 /\ t' = t | None => exists a b, elements t = a ++ b /\ elements t' = a ++ x :: b end.
Proof.
  intros A cmp x t [n K]. destruct (insert_at_ok A cmp x t [] Black n K (c_nil n) ltac:(discriminate)) as (o & t' & E & R & H). exists o, t'. split; [exact E|]. split; [exact R|]. destruct o as [y|]; [exact H|]. destruct H as (a & b & H1 & H2 & _). eauto.
Qed.
Print Assumptions C142_insert.
(** Removing a node of a red-black tree ends, follows no NULL pointer, gives a red-black tree and takes out this element only. *)
Theorem C142_remove : forall A (t : rbt A) c l x r p, redblack t -> node_of t c l x r p -> exists need a b, elements t = a ++ x :: b /\ forall fuel, (need <= fuel)%nat -> exists t', rb_remove fuel c l x r p = Ok t' /\ redblack t' /\ elements t' = a ++ b.
Proof.
  intros A t c l x r p R Nd. exists (length p + height r + 3)%nat, (before p ++ elements l), (elements r ++ after p). split; [unfold node_of in Nd; subst t; rewrite elements_zip; norm; auto|]. intros fuel L. pose proof (rb_remove_ok A fuel t c l x r p R Nd) as F. destruct (rb_remove fuel c l x r p) as [t'| | |]; cbn [fine] in F; try contradiction; [exists t'; tauto|lia].
Qed.
Print Assumptions C142_remove.
(** After any history the tree is red-black. *)
Theorem C142_history : forall A (cmp : A -> A -> Z) t, grown cmp t -> redblack t.
Proof.
  intros A cmp t G. induction G as [|t x o t' G IH E|t c l x r p fuel t' G IH Nd E].
  - exists O. constructor.
  - destruct (C142_insert A cmp x t IH) as (o2 & t2 & E2 & R & _). assert (t2 = t') as <- by congruence. exact R.
  - pose proof (rb_remove_ok A fuel t c l x r p IH Nd) as F. rewrite E in F. apply F.
Qed.
Print Assumptions C142_history.
Lemma colored_height : forall A (t : rbt A) c n, colored c n t -> (height t <= 2 * n + match c with Red => 1 | Black => 0 end)%nat /\ (2 ^ n <= length (elements t) + 1)%nat.
Proof.
  intros A t c n K. induction K as [|n l x r K1 [H1 S1] K2 [H2 S2]|cl cr n l x r K1 [H1 S1] K2 [H2 S2]]; cbn [height elements]; [cbn; lia| |]; rewrite app_length; cbn [length Nat.pow]; split; [lia|lia| |lia]. destruct cl, cr; lia.
Qed.
(** No way down is longer than twice the binary logarithm of the number of elements plus one. *)
Theorem C142_height : forall A (t : rbt A), redblack t -> (height t <= 2 * Nat.log2 (length (elements t) + 1))%nat.
Proof.
  intros A t [n K]. apply colored_height in K as [H S]. apply Nat.log2_le_mono in S. rewrite Nat.log2_pow2 in S by lia. lia.
Qed.
Print Assumptions C142_height.

(** ** C143: an ordered set *)
Lemma signs_all : forall A (k : A -> Z) a b, signs k (a ++ b) -> Forall (fun y => k y > 0) a -> Forall (fun y => k y < 0) b -> forall y, In y (a ++ b) -> k y <> 0.
Proof. intros A k a b S FA FB y Y. rewrite Forall_forall in *. apply in_app_or in Y as [Y|Y]; [specialize (FA y Y)|specialize (FB y Y)]; lia. Qed.
(** RB_INSERT puts an element at its place and returns NULL, or returns the equal element and changes nothing. *)
Theorem C143_insert : forall A (cmp : A -> A -> Z) x t, comparison cmp -> redblack t -> sorted cmp (elements t) -> exists o t', rb_insert cmp x t = Ok (o, t') /\
  match o with
  | Some y => In y (elements t) /\ cmp x y = 0 /\ t' = t
  | None => (forall y, In y (elements t) -> cmp x y <> 0) /\ elements t' = put cmp x (elements t)
  end.
Proof.
  intros A cmp x t C [n K] S. destruct (insert_at_ok A cmp x t [] Black n K (c_nil n) ltac:(discriminate)) as (o & t' & E & R & H). exists o, t'. split; [exact E|]. destruct o as [y|]; [exact H|]. change (zip t []) with t in H. destruct H as (a & b & H1 & H2 & H3). pose proof (sorted_signs cmp C x _ S) as Sg. destruct (H3 Sg) as [FA FB]; [constructor|constructor|].
  rewrite H1 in Sg |- *. split; [eapply signs_all; eauto|]. rewrite H2, put_app by auto. f_equal. destruct b as [|z b]; [auto|]. inversion FB; subst. cbn [put]. replace (cmp x z <? 0) with true by lia. auto.
Qed.
Print Assumptions C143_insert.
(** After any history the elements are in strictly increasing order. *)
Theorem C143_history : forall A (cmp : A -> A -> Z) t, comparison cmp -> grown cmp t -> sorted cmp (elements t).
Proof.
  intros A cmp t C G. induction G as [|t x o t' G IH E|t c l x r p fuel t' G IH Nd E].
  - constructor.
  - pose proof (C142_history A cmp t G) as [n K]. destruct (insert_at_ok A cmp x t [] Black n K (c_nil n) ltac:(discriminate)) as (o2 & t2 & E2 & R & H). unfold rb_insert in E. assert (o2 = o /\ t2 = t') as [-> ->] by (split; congruence). change (zip t []) with t in H. destruct o as [y|]; [destruct H as (_ & _ & ->); exact IH|]. destruct H as (a & b & H1 & H2 & H3).
    destruct (H3 (sorted_signs cmp C x _ IH)) as [FA FB]; [constructor|constructor|]. rewrite H1 in IH. rewrite H2. unfold sorted in *. apply ss_app in IH as (S1 & S2 & S3). apply ss_node. split; [exact S1|]. split; [exact S2|]. split; [|split; [exact FB|exact S3]]. rewrite Forall_forall in *. intros y Y. apply (cmp_sym cmp C). specialize (FA y Y). lia.
  - pose proof (rb_remove_ok A fuel t c l x r p (C142_history A cmp t G) Nd) as F. rewrite E in F. destruct F as [_ F]. unfold node_of in Nd. subst t. rewrite elements_zip in IH. cbn [elements] in IH. rewrite F. unfold sorted in *. replace (before p ++ (elements l ++ x :: elements r) ++ after p) with ((before p ++ elements l) ++ x :: (elements r ++ after p)) in IH by (norm; auto). apply ss_node in IH as (S1 & S2 & _ & _ & S3). apply ss_app. auto.
Qed.
Print Assumptions C143_history.
(** RB_FIND finds the equal element; RB_NFIND the first one that is not less. *)
Theorem C143_find : forall A (cmp : A -> A -> Z) x t, comparison cmp -> sorted cmp (elements t) ->
  match rb_find cmp x t with Some y => In y (elements t) /\ cmp x y = 0 | None => forall y, In y (elements t) -> cmp x y <> 0 end.
Proof.
  intros A cmp x t C S. pose proof (sorted_signs cmp C x _ S) as Sg. clear S. induction t as [|c l IHl y r IHr]; cbn [rb_find elements] in *; [intros y []|]. pose proof Sg as Sg0. unfold signs in Sg0. apply ss_node in Sg0 as (Sl & Sr & _). destruct (cmp x y <? 0) eqn:K1; [|destruct (cmp x y >? 0) eqn:K2].
  - specialize (IHl Sl). destruct (rb_find cmp x l) as [z|]; [split; [apply in_or_app; tauto|tauto]|]. apply after_neg in Sg; [|lia]. rewrite Forall_forall in Sg. intros z Z. apply in_app_or in Z as [Z|[<-|Z]]; [auto|lia|specialize (Sg z Z); lia].
  - specialize (IHr Sr). destruct (rb_find cmp x r) as [z|]; [split; [apply in_or_app; cbn; tauto|tauto]|]. apply before_pos in Sg; [|lia]. rewrite Forall_forall in Sg. intros z Z. apply in_app_or in Z as [Z|[<-|Z]]; [specialize (Sg z Z); lia|lia|auto].
  - split; [apply in_or_app; right; left; auto|lia].
Qed.
Print Assumptions C143_find.
Lemma nfind_ok : forall A (cmp : A -> A -> Z) x t res, signs (cmp x) (elements t) ->
  nfind_loop cmp x t res = match List.find (fun y => cmp x y <=? 0) (elements t) with Some y => Some y | None => res end.
Proof.
  intros A cmp x. assert (Fp : forall l m, Forall (fun y => cmp x y > 0) l -> List.find (fun y => cmp x y <=? 0) (l ++ m) = List.find (fun y => cmp x y <=? 0) m).
  { induction l as [|y l IH]; intros m F; [auto|]. inversion F; subst. cbn [app List.find]. replace (cmp x y <=? 0) with false by lia. auto. }
  assert (Fa : forall l m, List.find (fun y => cmp x y <=? 0) (l ++ m) = match List.find (fun y => cmp x y <=? 0) l with Some y => Some y | None => List.find (fun y => cmp x y <=? 0) m end).
  { induction l as [|y l IH]; intros m; [auto|]. cbn [app List.find]. destruct (cmp x y <=? 0); auto. }
  induction t as [|c l IHl y r IHr]; intros res Sg; cbn [nfind_loop elements] in *; [auto|]. pose proof Sg as Sg0. unfold signs in Sg0. apply ss_node in Sg0 as (Sl & Sr & _). rewrite Fa. cbn [List.find]. destruct (cmp x y <? 0) eqn:K1; [|destruct (cmp x y >? 0) eqn:K2].
  - rewrite IHl by auto. replace (cmp x y <=? 0) with true by lia. destruct (List.find _ (elements l)); auto.
  - rewrite IHr by auto. replace (cmp x y <=? 0) with false by lia. apply before_pos in Sg; [|lia]. rewrite <- (app_nil_r (elements l)), (Fp _ [] Sg). cbn [List.find]. auto.
  - replace (cmp x y <=? 0) with true by lia. apply before_pos in Sg; [|lia]. rewrite <- (app_nil_r (elements l)), (Fp _ [] Sg). auto.
Qed.
Theorem C143_nfind : forall A (cmp : A -> A -> Z) x t, comparison cmp -> sorted cmp (elements t) ->
  match rb_nfind cmp x t with
  | Some y => exists a b, elements t = a ++ y :: b /\ cmp x y <= 0 /\ forall z, In z a -> cmp x z > 0
  | None => forall z, In z (elements t) -> cmp x z > 0
  end.
Proof.
  intros A cmp x t C S. unfold rb_nfind. rewrite nfind_ok by (apply sorted_signs; auto). generalize (elements t). clear. induction l as [|y l IH]; cbn [List.find]; [intros z []|]. destruct (cmp x y <=? 0) eqn:K.
  - exists [], l. split; [auto|]. split; [lia|intros z []].
  - destruct (List.find (fun y => cmp x y <=? 0) l) as [w|].
    + destruct IH as (a & b & -> & H1 & H2). exists (y :: a), b. split; [auto|]. split; [auto|]. intros z [<-|Z]; [lia|auto].
    + intros z [<-|Z]; [lia|auto].
Qed.
Print Assumptions C143_nfind.
(** ** C144: going through the tree *)
Lemma minmax_neg : forall A (t : rbt A) o, minmax_loop (-1) t o = match hd_error (elements t) with Some x => Some x | None => o end.
Proof. intros A. induction t as [|c l IHl x r _]; intros o; [auto|]. cbn [minmax_loop]. change (-1 <? 0) with true. cbv iota. rewrite IHl. cbn [elements]. destruct (elements l); auto. Qed.
Lemma minmax_pos : forall A (t : rbt A) o, minmax_loop 1 t o = match hd_error (rev (elements t)) with Some x => Some x | None => o end.
Proof. intros A. induction t as [|c l _ x r IHr]; intros o; [auto|]. cbn [minmax_loop]. change (1 <? 0) with false. cbv iota. rewrite IHr. cbn [elements]. rewrite rev_app_distr. cbn [rev]. destruct (rev (elements r)); auto. Qed.
(** RB_MIN and RB_MAX: the first and the last element, or NULL. *)
Theorem C144_min_max : forall A (t : rbt A), rb_minmax (-1) t = hd_error (elements t) /\ rb_minmax 1 t = hd_error (rev (elements t)).
Proof. intros A t. unfold rb_minmax. rewrite minmax_neg, minmax_pos. destruct (hd_error (elements t)), (hd_error (rev (elements t))); auto. Qed.
Print Assumptions C144_min_max.
Lemma climb_right_ok : forall A (p : list (frame A)), climb_right p = hd_error (after p). Proof. induction p as [|[c x r|c x l] p IH]; cbn [climb_right after]; auto. Qed.
Lemma climb_left_ok : forall A (p : list (frame A)), climb_left p = hd_error (rev (before p)). Proof. induction p as [|[c x r|c x l] p IH]; cbn [climb_left before]; auto. rewrite !rev_app_distr. auto. Qed.
(** RB_NEXT and RB_PREV of any node of any tree: the elements behind and before it, or NULL. *)
Theorem C144_next_prev : forall A (t : rbt A) c l x r p, node_of t c l x r p -> exists a b, elements t = a ++ x :: b /\ rb_next r p = hd_error b /\ rb_prev l p = hd_error (rev a).
Proof.
  intros A t c l x r p Nd. unfold node_of in Nd. subst t. exists (before p ++ elements l), (elements r ++ after p). split; [rewrite elements_zip; norm; auto|]. split.
  - destruct r as [|cr rl rx rr]; [apply climb_right_ok|]. unfold rb_next. rewrite minmax_neg. cbn [elements]. destruct (elements rl); auto.
  - destruct l as [|cl ll lx lr]; [cbn [rb_prev elements]; rewrite app_nil_r; apply climb_left_ok|]. unfold rb_prev. rewrite minmax_pos. rewrite rev_app_distr. cbn [elements]. rewrite rev_app_distr. cbn [rev]. destruct (rev (elements lr)); auto.
Qed.
Print Assumptions C144_next_prev.
(** Every element of a tree is at a node. *)
Theorem C144_node : forall A (t : rbt A) x, In x (elements t) -> exists c l r p, node_of t c l x r p.
Proof.
  intros A t x. assert (G : forall t p, In x (elements t) -> exists c l r q, zip (N c l x r) q = zip t p).
  { clear. induction t as [|c l IHl y r IHr]; intros p H; [destruct H|]. cbn [elements] in H. apply in_app_or in H as [H|[<-|H]].
    - destruct (IHl (InL c y r :: p) H) as (c2 & l2 & r2 & q & E). rewrite zip_cons in E. eauto.
    - eauto.
    - destruct (IHr (InR c y l :: p) H) as (c2 & l2 & r2 & q & E). rewrite zip_cons in E. eauto. }
  intros H. destruct (G t [] H) as (c & l & r & q & E). exists c, l, r, q. exact E.
Qed.
Print Assumptions C144_node.

(** ** Non-vacuity *)
Fixpoint insert_all (l : list Z) (t : rbt Z) : rbt Z := match l with [] => t | x :: l => match rb_insert Z.sub x t with Ok (_, t') => insert_all l t' | _ => t end end.
Lemma insert_all_grown : forall l t, grown Z.sub t -> grown Z.sub (insert_all l t).
Proof.
  induction l as [|x l IH]; intros t G; [exact G|]. cbn [insert_all]. destruct (rb_insert Z.sub x t) as [[o t']| | |] eqn:E; auto. apply IH. eapply g_insert; eauto.
Qed.
(** Eight insertions in increasing order, an insertion of an element that is there, and the removal of the root, of the black leaf 1 and of a red node. *)
Definition rb8 : rbt Z := insert_all [1; 2; 3; 4; 5; 6; 7; 8] L.
Example C142_example : grown Z.sub rb8 /\ elements rb8 = [1; 2; 3; 4; 5; 6; 7; 8] /\ height rb8 = 4%nat /\ rb_insert Z.sub 5 rb8 = Ok (Some 5, rb8) /\
  (exists l r t', node_of rb8 Black l 4 r [] /\ l <> L /\ r <> L /\ rb_remove 9 Black l 4 r [] = Ok t' /\ redblack t' /\ elements t' = [1; 2; 3; 5; 6; 7; 8]) /\
  (exists p t', node_of rb8 Black L 1 L p /\ length p = 2%nat /\ rb_remove 9 Black L 1 L p = Ok t' /\ elements t' = [2; 3; 4; 5; 6; 7; 8]).
Proof.
  split; [apply insert_all_grown; constructor|]. split; [vm_compute; auto|]. split; [vm_compute; auto|]. split; [vm_compute; auto|]. split.
  - set (t := rb8). assert (E : exists l r, t = N Black l 4 r /\ l <> L /\ r <> L) by (vm_compute; do 2 eexists; split; [reflexivity|split; discriminate]). destruct E as (l & r & E & Hl & Hr). exists l, r.
    assert (G : grown Z.sub t) by (apply insert_all_grown; constructor). pose proof (C142_history Z Z.sub t G) as R. assert (Nd : node_of t Black l 4 r []) by (symmetry; exact E).
    assert (E2 : exists t', rb_remove 9 Black l 4 r [] = Ok t' /\ elements t' = [1; 2; 3; 5; 6; 7; 8]) by (vm_compute in E; injection E as <- <-; vm_compute; eauto). destruct E2 as (t' & E2 & E3). exists t'. repeat (split; [assumption|]). split; [|exact E3].
    apply (C142_history Z Z.sub). eapply g_remove; eauto.
  - exists (match rb8 with N c (N c1 _ x1 r1) x r => [InL c1 x1 r1; InL c x r] | _ => [] end). eexists. split; [vm_compute; reflexivity|]. split; [vm_compute; reflexivity|]. split; vm_compute; reflexivity.
Qed.
Example C143_example : comparison Z.sub /\ sorted Z.sub (elements rb8) /\ rb_find Z.sub 6 rb8 = Some 6 /\ rb_find Z.sub 9 rb8 = None /\ rb_nfind (fun a b => a - 2 * b) 9 rb8 = Some 5 /\ rb_nfind Z.sub 0 rb8 = Some 1 /\ rb_nfind Z.sub 9 rb8 = None.
Proof.
  assert (C : comparison Z.sub) by (split; intros; lia). split; [exact C|]. split; [apply C143_history; [exact C|apply C142_example]|]. repeat split; vm_compute; reflexivity.
Qed.
Example C144_example : rb_minmax (-1) rb8 = Some 1 /\ rb_minmax 1 rb8 = Some 8 /\ exists l r, node_of rb8 Black l 4 r [] /\ rb_next r [] = Some 5 /\ rb_prev l [] = Some 3.
Proof. split; [vm_compute; auto|]. split; [vm_compute; auto|]. vm_compute. do 2 eexists. split; [reflexivity|]. split; reflexivity. Qed.
