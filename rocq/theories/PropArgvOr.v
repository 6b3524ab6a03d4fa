(** PropArgvOr.v: options that exclude each other (libmy/argv.c, C163). *)
From Verif Require Import Base Lib SpecArgvOr ModelArgvOr.

Lemma entry_in : forall g i, 0 <= i < zlen g -> exists e, entry_at g i = Ok e.
Proof.
  intros g i R. unfold entry_at. replace (i <? 0) with false by lia. destruct (nth_error g (Z.to_nat i)) as [e|] eqn:E; [eauto|]. apply nth_error_None in E. unfold zlen in R. lia.
Qed.
Lemma entry_out : forall g i, zlen g <= i -> entry_at g i = UB OobRead.
Proof. intros g i R. unfold entry_at. pose proof (zlen_nonneg _ g). replace (i <? 0) with false by lia. destruct (nth_error g (Z.to_nat i)) as [e|] eqn:E; [|reflexivity]. assert (nth_error g (Z.to_nat i) <> None) as K by congruence. apply nth_error_Some in K. unfold zlen in R. lia. Qed.
Lemma entry_app : forall g r i, i < zlen g -> entry_at (g ++ r) i = entry_at g i.
Proof. intros g r i R. unfold entry_at. destruct (i <? 0) eqn:E; [reflexivity|]. rewrite nth_error_app1 by (unfold zlen in R; lia). reflexivity. Qed.
Lemma entry_behind : forall g e r, entry_at (g ++ e :: r) (zlen g) = Ok e.
Proof. intros g e r. unfold entry_at. pose proof (zlen_nonneg _ g). replace (zlen g <? 0) with false by lia. rewrite nth_error_app2 by (unfold zlen; lia). replace (Z.to_nat (zlen g) - length g)%nat with O by (unfold zlen; lia). reflexivity. Qed.
Lemma link_iff : forall g i e, entry_at g i = Ok e -> (link_at g i <-> is_link (e_kind e) = true).
Proof. intros g i e E. unfold link_at. rewrite E. split; [intros (x & X & [K|K]); assert (x = e) as -> by congruence; rewrite K; reflexivity|]. intros K. exists e. split; [reflexivity|]. destruct (e_kind e); try discriminate; auto. Qed.
Lemma used_iff : forall g i e, entry_at g i = Ok e -> (used_at g i <-> e_used e = true).
Proof. intros g i e E. unfold used_at. rewrite E. split; [intros (x & X & K); assert (x = e) as -> by congruence; exact K|]. intros K. exists e. auto. Qed.

Lemma below_ok : forall fuel g i, i + 1 < zlen g -> i + 1 < Z.of_nat fuel -> (0 < fuel)%nat -> exists r, check_below fuel g i = Ok r /\
  (r <> None <-> exists k, 0 <= k /\ 0 <= i - 2 * k /\ used_at g (i - 2 * k) /\ forall m, 0 <= m <= k -> link_at g (i - 2 * m + 1)).
Proof.
  induction fuel as [|f IH]; intros g i B L P; [lia|]. cbn [check_below]. destruct (i <? 0) eqn:N.
  { exists None. split; [reflexivity|]. split; [congruence|]. intros (k & K & H & _). lia. }
  destruct (entry_in g (i + 1)) as [l El]; [lia|]. destruct (entry_in g i) as [e Ee]; [lia|]. rewrite El, Ee. cbn [bind].
  pose proof (link_iff _ _ _ El) as LI. pose proof (used_iff _ _ _ Ee) as UI. destruct (is_link (e_kind l)) eqn:K; cbn [negb].
  - destruct (e_used e) eqn:U.
    + exists (Some i). split; [reflexivity|]. split; [|discriminate]. intros _. exists 0. replace (i - 2 * 0) with i by lia. split; [lia|]. split; [lia|]. split; [apply UI; reflexivity|]. intros m M. replace (i - 2 * m + 1) with (i + 1) by lia. apply LI. reflexivity.
    + assert (ST : exists r, check_below f g (i - 2) = Ok r /\ (r <> None <-> exists k, 0 <= k /\ 0 <= i - 2 - 2 * k /\ used_at g (i - 2 - 2 * k) /\ forall m, 0 <= m <= k -> link_at g (i - 2 - 2 * m + 1))) by (destruct f as [|f]; [exfalso; lia|apply IH; lia]).
      destruct ST as (r & -> & H). exists r. split; [reflexivity|]. rewrite H. split; intros (k & K0 & K1 & K2 & K3).
      * exists (k + 1). split; [lia|]. split; [lia|]. split; [replace (i - 2 * (k + 1)) with (i - 2 - 2 * k) by lia; exact K2|]. intros m M. destruct (Z.eq_dec m 0) as [->|D]; [replace (i - 2 * 0 + 1) with (i + 1) by lia; apply LI; reflexivity|]. replace (i - 2 * m + 1) with (i - 2 - 2 * (m - 1) + 1) by lia. apply K3. lia.
      * destruct (Z.eq_dec k 0) as [->|D]; [replace (i - 2 * 0) with i in K2 by lia; apply UI in K2; congruence|]. exists (k - 1). split; [lia|]. split; [lia|]. split; [replace (i - 2 - 2 * (k - 1)) with (i - 2 * k) by lia; exact K2|]. intros m M. replace (i - 2 - 2 * m + 1) with (i - 2 * (m + 1) + 1) by lia. apply K3. lia.
  - exists None. split; [reflexivity|]. split; [congruence|]. intros (k & K0 & _ & _ & K3). exfalso. specialize (K3 0 ltac:(lia)). replace (i - 2 * 0 + 1) with (i + 1) in K3 by lia. apply LI in K3. congruence.
Qed.
Lemma above_ok : forall fuel t z x i, Forall (fun e => e_kind e <> ELast) t -> e_kind z = ELast -> 1 <= i <= zlen t + 1 -> zlen t + 1 - i < Z.of_nat fuel -> exists r, check_above fuel (t ++ [z; x]) i = Ok r /\
  (r <> None <-> exists k, 0 <= k /\ i + 2 * k < zlen t /\ used_at t (i + 2 * k) /\ forall m, 0 <= m <= k -> link_at t (i + 2 * m - 1)).
Proof.
  induction fuel as [|f IH]; intros t z x i F Zk B L; [lia|]. cbn [check_above].
  assert (LEN : zlen (t ++ [z; x]) = zlen t + 2) by (rewrite zlen_app, !zlen_cons, zlen_nil; lia).
  destruct (entry_in (t ++ [z; x]) i) as [e Ee]; [lia|]. destruct (entry_in (t ++ [z; x]) (i - 1)) as [l El]; [lia|]. rewrite Ee. cbn [bind].
  assert (NO : zlen t <= i -> exists r : option Z, (if is_last (e_kind e) then Ok None else l <- entry_at (t ++ [z; x]) (i - 1) ;; if is_last (e_kind l) then Ok None else if negb (is_link (e_kind l)) then Ok None else if e_used e then Ok (Some i) else check_above f (t ++ [z; x]) (i + 2)) = Ok r /\ r = None).
  { intros G. destruct (Z.eq_dec i (zlen t)) as [->|D].
    - rewrite entry_behind in Ee. assert (e = z) as -> by congruence. rewrite Zk. exists None. auto.
    - replace (i - 1) with (zlen t) by lia. rewrite entry_behind. cbn [bind]. rewrite Zk. exists None. destruct (is_last (e_kind e)); auto. }
  destruct (Z_le_gt_dec (zlen t) i) as [G|G].
  { destruct (NO G) as (r & -> & ->). exists None. split; [reflexivity|]. split; [congruence|]. intros (k & K & H & _). lia. }
  rewrite entry_app in Ee by lia. rewrite El. cbn [bind]. rewrite entry_app in El by lia.
  assert (NL : forall j a, entry_at t j = Ok a -> is_last (e_kind a) = false).
  { intros j a A. unfold entry_at in A. destruct (j <? 0); [discriminate|]. destruct (nth_error t (Z.to_nat j)) as [a'|] eqn:E; [|discriminate]. assert (a' = a) as -> by congruence. apply nth_error_In in E. rewrite Forall_forall in F. specialize (F _ E). destruct (e_kind a) eqn:Q; cbn [is_last]; congruence. }
  rewrite (NL _ _ Ee), (NL _ _ El). pose proof (link_iff _ _ _ El) as LI. pose proof (used_iff _ _ _ Ee) as UI. destruct (is_link (e_kind l)) eqn:K; cbn [negb].
  - destruct (e_used e) eqn:U.
    + exists (Some i). split; [reflexivity|]. split; [|discriminate]. intros _. exists 0. replace (i + 2 * 0) with i by lia. split; [lia|]. split; [lia|]. split; [apply UI; reflexivity|]. intros m M. replace (i + 2 * m - 1) with (i - 1) by lia. apply LI. reflexivity.
    + destruct (IH t z x (i + 2) F Zk) as (r & -> & H); [lia|lia|]. exists r. split; [reflexivity|]. rewrite H. split; intros (k & K0 & K1 & K2 & K3).
      * exists (k + 1). split; [lia|]. split; [lia|]. split; [replace (i + 2 * (k + 1)) with (i + 2 + 2 * k) by lia; exact K2|]. intros m M. destruct (Z.eq_dec m 0) as [->|D]; [replace (i + 2 * 0 - 1) with (i - 1) by lia; apply LI; reflexivity|]. replace (i + 2 * m - 1) with (i + 2 + 2 * (m - 1) - 1) by lia. apply K3. lia.
      * destruct (Z.eq_dec k 0) as [->|D]; [replace (i + 2 * 0) with i in K2 by lia; apply UI in K2; congruence|]. exists (k - 1). split; [lia|]. split; [lia|]. split; [replace (i + 2 + 2 * (k - 1)) with (i + 2 * k) by lia; exact K2|]. intros m M. replace (i + 2 + 2 * m - 1) with (i + 2 * (m + 1) - 1) by lia. apply K3. lia.
  - exists None. split; [reflexivity|]. split; [congruence|]. intros (k & K0 & _ & _ & K3). exfalso. specialize (K3 0 ltac:(lia)). replace (i + 2 * 0 - 1) with (i - 1) in K3 by lia. apply LI in K3. congruence.
Qed.
Lemma link_app : forall t r i, i < zlen t -> (link_at (t ++ r) i <-> link_at t i).
Proof. intros t r i L. unfold link_at. rewrite entry_app by exact L. reflexivity. Qed.
Lemma used_app : forall t r i, i < zlen t -> (used_at (t ++ r) i <-> used_at t i).
Proof. intros t r i L. unfold used_at. rewrite entry_app by exact L. reflexivity. Qed.

(** ** C163: using an option is an error exactly if another option of its group is used - where one more entry behind ARGV_LAST can be read *)
Theorem C163_groups_partial : forall fuel t z x which, Forall (fun e => e_kind e <> ELast) t -> e_kind z = ELast -> 0 <= which < zlen t -> zlen t + 1 < Z.of_nat fuel ->
  exists b, check_or fuel (t ++ [z; x]) which = Ok b /\ (b = true <-> exists j, 0 <= j < zlen t /\ same_group t which j /\ used_at t j).
Proof.
  intros fuel t z x w F Zk R L. unfold check_or. assert (LEN : zlen (t ++ [z; x]) = zlen t + 2) by (rewrite zlen_app, !zlen_cons, zlen_nil; lia).
  destruct (below_ok fuel (t ++ [z; x]) (w - 2)) as (m & -> & H); [lia|lia|lia|]. destruct (above_ok fuel t z x (w + 2) F Zk) as (m' & E' & H'); [lia|lia|]. cbn [bind]. rewrite E'. cbn [bind].
  assert (HB : m <> None <-> exists j, 0 <= j < zlen t /\ used_at t j /\ exists k, 0 < k /\ j = w - 2 * k /\ forall m, 0 <= m < k -> link_at t (w - 2 * m - 1)).
  { rewrite H. split.
    - intros (k & K0 & K1 & K2 & K3). exists (w - 2 - 2 * k). split; [lia|]. split; [apply (used_app t [z; x]); [lia|exact K2]|]. exists (k + 1). split; [lia|]. split; [lia|]. intros n N. apply (link_app t [z; x]); [lia|]. replace (w - 2 * n - 1) with (w - 2 - 2 * n + 1) by lia. apply K3. lia.
    - intros (j & J & U & k & K & -> & K3). exists (k - 1). split; [lia|]. split; [lia|]. split; [replace (w - 2 - 2 * (k - 1)) with (w - 2 * k) by lia; apply used_app; [lia|exact U]|]. intros n N. apply link_app; [lia|]. replace (w - 2 - 2 * n + 1) with (w - 2 * n - 1) by lia. apply K3. lia. }
  assert (HA : m' <> None <-> exists j, 0 <= j < zlen t /\ used_at t j /\ exists k, 0 < k /\ j = w + 2 * k /\ forall m, 0 <= m < k -> link_at t (w + 2 * m + 1)).
  { rewrite H'. split.
    - intros (k & K0 & K1 & K2 & K3). exists (w + 2 + 2 * k). split; [lia|]. split; [exact K2|]. exists (k + 1). split; [lia|]. split; [lia|]. intros n N. replace (w + 2 * n + 1) with (w + 2 + 2 * n - 1) by lia. apply K3. lia.
    - intros (j & J & U & k & K & -> & K3). exists (k - 1). split; [lia|]. split; [lia|]. split; [replace (w + 2 + 2 * (k - 1)) with (w + 2 * k) by lia; exact U|]. intros n N. replace (w + 2 + 2 * n - 1) with (w + 2 * n + 1) by lia. apply K3. lia. }
  assert (ALL : (exists j, 0 <= j < zlen t /\ same_group t w j /\ used_at t j) <-> m <> None \/ m' <> None).
  { rewrite HB, HA. unfold same_group. split.
    - intros (j & J & (k & K & [[A B]|[A B]]) & U); [right|left]; exists j; split; auto; split; auto; exists k; auto.
    - intros [(j & J & U & k & K & A & B)|(j & J & U & k & K & A & B)]; exists j; split; auto; split; auto; exists k; auto. }
  destruct m as [m|]; [exists true; split; [reflexivity|]; rewrite ALL; split; [left; discriminate|reflexivity]|].
  exists (match m' with Some _ => true | None => false end). split; [reflexivity|]. rewrite ALL. destruct m'; split; intros Q; try reflexivity; try discriminate; [right; discriminate|]. destruct Q; congruence.
Qed.
Print Assumptions C163_groups_partial.
(** Where the table ends with ARGV_LAST, using its last option reads behind the table. *)
Theorem C163_refuted : forall fuel t o z, e_kind o = EOpt -> match rev t with [] => True | l :: _ => e_kind l = EOpt end -> check_or (S fuel) (t ++ [o; z]) (zlen t) = UB OobRead.
Proof.
  intros fuel t o z O R. unfold check_or. pose proof (zlen_nonneg _ t). assert (B : check_below (S fuel) (t ++ [o; z]) (zlen t - 2) = Ok None).
  { cbn [check_below]. destruct (_ <? 0) eqn:N; [reflexivity|]. destruct (rev t) as [|l r] eqn:E; [assert (t = []) as -> by (rewrite <- (rev_involutive t), E; reflexivity); rewrite zlen_nil in N; lia|].
    assert (T : t = rev r ++ [l]) by (rewrite <- (rev_involutive t), E; reflexivity). rewrite T. rewrite zlen_app, zlen_cons, zlen_nil. replace (zlen (rev r) + (0 + 1) - 2 + 1) with (zlen (rev r)) by lia.
    rewrite <- app_assoc. cbn [app]. rewrite entry_behind. cbn [bind]. rewrite R. reflexivity. }
  rewrite B. cbn [bind check_above]. rewrite entry_out by (rewrite zlen_app, !zlen_cons, zlen_nil; lia). reflexivity.
Qed.
Print Assumptions C163_refuted.
Example C163_ex :
  let opt u := {| e_kind := EOpt; e_used := u |} in let k k := {| e_kind := k; e_used := false |} in
  check_or 9 [opt true; k EOr; opt false; k EXor; opt true; k ELast; k ELast] 4 = Ok true /\ check_or 9 [opt true; opt false; opt true; k ELast; k ELast] 2 = Ok false /\ check_or 9 [opt true; k ELast] 0 = UB OobRead.
Proof. split; [|split]; reflexivity. Qed.
