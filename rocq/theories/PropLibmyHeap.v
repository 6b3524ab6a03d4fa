(** PropLibmyHeap.v: C72 and C73, the binary heap of libmy/heap.c. *)
From Verif Require Import Base Lib ModelLibmyHeap SpecLibmyHeap ProofLibmyHeap.
From Coq Require Import Permutation.

Lemma does_size : forall cmp bag c r bag', does cmp bag c r bag' -> zlen bag' = match c with Push _ => zlen bag + 1 | Pop => Z.max 0 (zlen bag - 1) | _ => zlen bag end.
Proof.
  assert (PL : forall a b : list Z, Permutation a b -> zlen a = zlen b) by (intros a b P; unfold zlen; rewrite (Permutation_length P); reflexivity).
  intros cmp bag c r bag' D. induction D as [bag x| |bag m rest F P|x|bag x m rest F P| |bag m F|bag i x R X|bag i R|bag|bag bag0 c r out P D IH]; try reflexivity.
  - rewrite zlen_cons. reflexivity.
  - rewrite (PL _ _ P), zlen_cons. pose proof (zlen_nonneg _ rest). lia.
  - rewrite (PL _ _ P), !zlen_cons. reflexivity.
  - rewrite (PL _ _ P). exact IH.
Qed.
Lemma history_ok : forall cmp, orders cmp -> forall cs v bag, ordered cmp v -> Permutation v bag -> gets_ok (zlen bag) cs -> zlen bag + zlen cs < 2 ^ 61 ->
  exists rs w bag', history cmp v cs = Ok (rs, w) /\ does_all cmp bag cs rs bag' /\ Permutation w bag' /\ ordered cmp w.
Proof.
  assert (PL : forall a b : list Z, Permutation a b -> zlen a = zlen b) by (intros a b P; unfold zlen; rewrite (Permutation_length P); reflexivity).
  intros cmp ORD cs. induction cs as [|c cs IH]; intros v bag O P G SZ.
  - exists [], v, bag. split; [reflexivity|]. split; [constructor|auto].
  - rewrite zlen_cons in SZ. pose proof (zlen_nonneg _ cs) as ZC. pose proof (PL _ _ P) as ZV.
    assert (A : allowed v c). { destruct c; cbn [allowed]; auto. cbn [gets_ok] in G. destruct G as (G1 & G2 & _). split; [exact G1|]. split; [intros ->; change (zlen (@nil Z)) with 0 in ZV; lia|lia]. }
    destruct (perform_ok cmp ORD v c O A) as (r & w & W1 & W2 & w' & W3 & W4).
    assert (D : does cmp bag c r w') by (apply d_perm with v; [apply Permutation_sym; exact P|exact W4]).
    pose proof (does_size _ _ _ _ _ D) as DS.
    destruct (IH w w' W2 W3) as (rs & u & bag' & H1 & H2 & H3 & H4).
    + rewrite DS. destruct c; cbn [gets_ok] in G; try exact G. tauto.
    + rewrite DS. pose proof (zlen_nonneg _ bag); destruct c; lia.
    + exists (r :: rs), u, bag'. cbn [history]. rewrite W1. cbn [bind]. rewrite H1. cbn [bind]. split; [reflexivity|]. split; [econstructor; eauto|auto].
Qed.

(** ** Every history of calls behaves as a priority queue; nothing fails *)
Theorem C72_history : forall cmp cs, orders cmp -> gets_ok 0 cs -> zlen cs < 2 ^ 61 ->
  exists rs v bag, history cmp [] cs = Ok (rs, v) /\ does_all cmp [] cs rs bag /\ Permutation v bag.
Proof.
  intros cmp cs ORD G SZ. destruct (history_ok cmp ORD cs [] []) as (rs & v & bag & A & B & C & _); [intros i x y _ E; destruct i; discriminate|constructor|exact G|exact SZ|].
  exists rs, v, bag. auto.
Qed.
Print Assumptions C72_history.

Lemma does_fun : forall cmp l bag rs bag', does_all cmp bag (map Push l) rs bag' -> Permutation bag' (l ++ bag).
Proof.
  assert (PP : forall cmp bag c r out, does cmp bag c r out -> forall x, c = Push x -> Permutation out (x :: bag)).
  { intros cmp bag c r out D. induction D as [bag x| |bag m rest F P|x|bag x m rest F P| |bag m F|bag i x R X|bag i R|bag|bag bag0 c r out P D IH]; intros y E; try discriminate.
    - injection E as ->. apply Permutation_refl.
    - apply Permutation_trans with (y :: bag0); [apply IH; exact E|apply perm_skip, Permutation_sym; exact P]. }
  intros cmp l. induction l as [|x l IH]; intros bag rs bag' D; cbn [map] in D; inversion D as [|? ? r bag1 ? rs' ? D1 D2]; subst; [apply Permutation_refl|].
  apply Permutation_trans with (l ++ bag1); [apply IH with rs'; exact D2|]. apply Permutation_trans with (l ++ x :: bag); [apply Permutation_app_head, (PP _ _ _ _ _ D1 x eq_refl)|]. apply Permutation_sym, Permutation_middle.
Qed.
Lemma does_pops : forall cmp n bag rs bag', does_all cmp bag (repeat Pop n) rs bag' -> length bag = n -> Permutation rs bag /\ in_order cmp rs /\ bag' = [].
Proof.
  assert (PP : forall cmp bag c r out, does cmp bag c r out -> c = Pop -> bag <> [] -> Permutation bag (r :: out) /\ first_of cmp r bag).
  { intros cmp bag c r out D. induction D as [bag x| |bag m rest F P|x|bag x m rest F P| |bag m F|bag i x R X|bag i R|bag|bag bag0 c r out P D IH]; intros E N; try discriminate; [congruence|auto|].
    destruct (IH E) as [A B]; [intros ->; apply Permutation_sym, Permutation_nil in P; congruence|]. split; [apply Permutation_trans with bag0; auto|eapply first_perm; [apply Permutation_sym|]; eauto]. }
  intros cmp n. induction n as [|n IH]; intros bag rs bag' D L; cbn [repeat] in D; inversion D as [|? ? r bag1 ? rs' ? D1 D2]; subst.
  - destruct bag'; [|discriminate]. repeat split; constructor.
  - destruct (PP _ _ _ _ _ D1 eq_refl) as [P F]; [intros ->; discriminate|]. assert (L1 : length bag1 = n). { apply Permutation_length in P. cbn [length] in P. lia. }
    destruct (IH _ _ _ D2 L1) as (A & B & C). split; [apply Permutation_trans with (r :: bag1); [apply perm_skip; exact A|apply Permutation_sym; exact P]|]. split; [|exact C].
    cbn [in_order]. split; [|exact B]. intros y Y. apply F. apply Permutation_in with (r :: bag1); [apply Permutation_sym; exact P|]. right. apply Permutation_in with rs'; auto.
Qed.
Lemma does_all_app : forall cmp a bag b rs bag', does_all cmp bag (a ++ b) rs bag' -> exists r1 r2 bag1, rs = r1 ++ r2 /\ length r1 = length a /\ does_all cmp bag a r1 bag1 /\ does_all cmp bag1 b r2 bag'.
Proof.
  intros cmp a. induction a as [|c a IH]; intros bag b rs bag' D; cbn [app] in D; [exists [], rs, bag; split; [reflexivity|]; split; [reflexivity|]; split; [constructor|exact D]|].
  inversion D as [|? ? r bag1 ? rs' ? D1 D2]; subst. destruct (IH _ _ _ _ D2) as (r1 & r2 & bag2 & -> & L & X & Y). exists (r :: r1), r2, bag2. split; [reflexivity|]. split; [cbn; lia|]. split; [econstructor; eauto|exact Y].
Qed.
(** ** Pushing everything and popping everything sorts *)
Theorem C72_sorts : forall cmp l, orders cmp -> zlen l < 2 ^ 60 ->
  exists zs sorted, history cmp [] (map Push l ++ repeat Pop (length l)) = Ok (zs ++ sorted, []) /\ length zs = length l /\ Permutation sorted l /\ in_order cmp sorted.
Proof.
  intros cmp l ORD SZ. set (cs := map Push l ++ repeat Pop (length l)).
  assert (G : forall n, gets_ok n cs). { unfold cs. generalize (length l) as k. induction l as [|x l IH]; intros k n; cbn [map app gets_ok]; [|apply IH; rewrite zlen_cons in SZ; lia]. revert n. induction k; intros n; cbn [repeat gets_ok]; auto. }
  assert (Z0 : zlen cs < 2 ^ 61). { unfold cs. rewrite zlen_app. unfold zlen in *. rewrite map_length, repeat_length. change (2 ^ 60) with 1152921504606846976 in SZ. change (2 ^ 61) with 2305843009213693952. lia. }
  destruct (C72_history cmp cs ORD (G 0) Z0) as (rs & v & bag & A & B & C). unfold cs in B. destruct (does_all_app _ _ _ _ _ _ B) as (r1 & r2 & bag1 & -> & L & B1 & B2).
  apply does_fun in B1. rewrite app_nil_r in B1. destruct (does_pops _ _ _ _ _ B2) as (P & I & ->); [apply Permutation_length; exact B1|].
  apply Permutation_sym, Permutation_nil in C. subst v. exists r1, r2. split; [exact A|]. split; [rewrite L; apply map_length|]. split; [apply Permutation_trans with bag1; auto|exact I].
Qed.
Print Assumptions C72_sorts.

(** ** heap_get 0 .. size - 1 enumerates the contents; beyond the end it gives NULL *)
Theorem C73_get_partial : forall v, v <> [] -> zlen v < 2 ^ 61 ->
  map (fun k => heap_get v (Z.of_nat k)) (seq 0 (length v)) = map (fun x => Ok x) v /\ forall i, zlen v <= i < 2 ^ 64 -> heap_get v i = Ok 0.
Proof.
  intros v N SZ. assert (Z1 : 0 < zlen v) by (destruct v; [congruence|rewrite zlen_cons; pose proof (zlen_nonneg _ v); lia]).
  change (2 ^ 61) with 2305843009213693952 in SZ.
  assert (M : (zlen v - 1) mod 2 ^ 64 = zlen v - 1) by (apply Z.mod_small; change (2 ^ 64) with 18446744073709551616; lia).
  split.
  - assert (E : forall k x, nth_error v k = Some x -> heap_get v (Z.of_nat k) = Ok x).
    { intros k x X. unfold heap_get. rewrite M. assert (k < length v)%nat by (apply nth_error_Some; congruence). replace (Z.of_nat k >? zlen v - 1) with false by (unfold zlen; lia). rewrite Nat2Z.id. unfold value. rewrite X. reflexivity. }
    assert (X : forall f : nat -> outcome Z, forall l s, (forall k x, nth_error l k = Some x -> f (s + k)%nat = Ok x) -> map f (seq s (length l)) = map (fun x => Ok x) l).
    { intros f. induction l as [|a l IH]; intros s H; [reflexivity|]. cbn [length seq map]. f_equal; [replace s with (s + 0)%nat by lia; apply H; reflexivity|]. apply IH. intros k x K. replace (S s + k)%nat with (s + S k)%nat by lia. apply H. exact K. }
    apply (X (fun k => heap_get v (Z.of_nat k))). exact E.
  - intros i R. unfold heap_get. rewrite M. replace (i >? zlen v - 1) with true by lia. reflexivity.
Qed.
Print Assumptions C73_get_partial.
(** On an empty heap every index passes the test (size - 1 wraps) and the assertion of ptrvec_value fails. *)
Theorem C73_get_empty_refuted : forall i, 0 <= i < 2 ^ 64 -> heap_get [] i = UB AssertFail.
Proof. intros i R. unfold heap_get. change ((zlen (@nil Z) - 1) mod 2 ^ 64) with (2 ^ 64 - 1). replace (i >? 2 ^ 64 - 1) with false by lia. unfold value. destruct (Z.to_nat i); reflexivity. Qed.
Print Assumptions C73_get_empty_refuted.

(** The hypotheses are met: numbers compared by subtraction, a history with all calls. *)
Example C72_orders : orders (fun a b => a - b).
Proof. split; intros; lia. Qed.
Example C72_ex : let cs := [Push 5; Push 3; Push 9; Peek; Push 1; Pop; Replace 7; Size; Get 2; Get 9; Pop; Pop; Pop; Pop] in
  gets_ok 0 cs /\ history (fun a b => a - b) [] cs = Ok ([0; 0; 0; 3; 0; 1; 3; 3; 9; 0; 5; 7; 9; 0], []).
Proof. split; [cbn; lia|vm_compute; reflexivity]. Qed.
