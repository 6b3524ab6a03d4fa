(** PropVector.v: C56, the growable buffer (libmy/vector.h, libmy/ubuf.h).
    Specification: SpecVector.v ([holds], [lstep], [vop_pre], [sane]). *)
From Verif Require Import Base Lib ModelVector SpecVector ProofVector.

(** C56.  A new buffer is empty (or the allocator refused and the program aborted). *)
Theorem C56_new : forall esz ok hint, 1 <= esz <= 2 ^ 16 -> sane ok -> 0 <= hint < 2 ^ 32 ->
  match vec_init esz ok hint with
  | Ok v => holds esz v [] | UB AssertFail => exists b, b < 2 ^ 48 /\ ok b = false | _ => False
  end.
Proof.
  intros esz ok hint E O H. pose proof (init_spec esz E ok O hint H) as S. unfold okor in S.
  destruct (vec_init esz ok hint) as [v|r|[]|]; auto. exact (proj1 S).
Qed.

(** C56.  Any history of operations, with any allocator behaviour, starting from a buffer holding [l], ends in
    a buffer holding the elements the same history gives on lists, or in the abort of a failed allocation
    (or of a format longer than INT_MAX): no store outside the block, no read of a cell never written,
    no endless loop. *)
Theorem C56_list : forall esz h v l, 1 <= esz <= 2 ^ 16 -> Forall (fun x => sane (fst x)) h ->
  holds esz v l -> vpre l h ->
  match vrun esz v h with
  | Ok v' => holds esz v' (lrun l h) | UB AssertFail => True | _ => False
  end.
Proof.
  induction h as [|(ok, o) h IH]; intros v l E S H P; cbn [vrun lrun]; auto.
  inversion S as [|x y S1 S2]; subst. destruct P as (P1 & P2). cbn [fst] in S1.
  pose proof (step_any esz E ok S1 v l o H P1) as X.
  destruct (vstep esz ok v o) as [v'|r|[]|]; cbn [bind]; auto. apply IH; auto.
Qed.

(** Every operation needs fewer than 2^62 octets and every format is short enough. *)
Fixpoint small_history (esz : Z) (l : bytes) (h : list ((Z -> bool) * vop)) : Prop :=
  match h with
  | [] => True
  | (ok, o) :: h =>
      2 * vop_need l o * esz <= 2 ^ 63 /\ (forall s, o = Vadd_fmt s -> zlen s <= 2147483647) /\
      (forall b, b < 2 ^ 63 -> ok b = true) /\ small_history esz (lstep l o) h
  end.

(** C56.  When the allocator serves every request below 2^63 octets, a history whose contents stay below 2^62
    octets does not abort either. *)
Theorem C56_no_abort : forall esz h v l, 1 <= esz <= 2 ^ 16 -> Forall (fun x => sane (fst x)) h ->
  holds esz v l -> vpre l h -> small_history esz l h ->
  exists v', vrun esz v h = Ok v' /\ holds esz v' (lrun l h).
Proof.
  induction h as [|(ok, o) h IH]; intros v l E S H P M; cbn [vrun lrun]; eauto.
  inversion S as [|x y S1 S2]; subst. destruct P as (P1 & P2). destruct M as (M1 & M2 & M3 & M4). cbn [fst] in S1.
  pose proof (step_spec esz E ok S1 v l o H P1 M2) as X. unfold okor in X.
  destruct (vstep esz ok v o) as [v'|r|[]|]; cbn [bind]; try contradiction.
  - apply IH; auto. exact (proj1 X).
  - destruct X as (b & B & C). exfalso. rewrite M3 in C; [discriminate|]. lia.
Qed.

(** C56.  What a holder reads: the size, each element, and nothing else ([_value] aborts out of range). *)
Theorem C56_value : forall esz v l, holds esz v l ->
  vec_size v = zlen l /\ v_p v = zlen l /\ (1 <= esz -> vec_bytes esz v = zlen l * esz) /\
  (forall i, 0 <= i -> vec_value v i = if i <? zlen l then Ok (nth (Z.to_nat i) l 0) else UB AssertFail).
Proof.
  intros esz v l H. split; [apply H|]. split; [apply H|]. split.
  - intros E. unfold vec_bytes. assert (N : v_n v = zlen l) by apply H. rewrite N. apply szt_small.
    destruct H as ((junk & B) & HL & _ & _ & HH & HA & HB). rewrite B, zlen_app, zlen_map in HL.
    pose proof (zlen_nonneg _ l). pose proof (zlen_nonneg _ junk). nia.
  - intros i I. apply (value_spec esz); auto.
Qed.

(** C56.  The capacity grows by doubling: an operation leaves it at most twice the room it needed. *)
Theorem C56_capacity : forall esz ok v l o v', 1 <= esz <= 2 ^ 16 -> sane ok -> holds esz v l -> vop_pre l o ->
  (forall h, o <> Vreinit h) -> vstep esz ok v o = Ok v' ->
  zlen (lstep l o) <= v_alloced v' <= Z.max (Z.max (v_alloced v) (v_hint v)) (2 * vop_need l o).
Proof.
  intros esz ok v l o v' E O H P NR R.
  assert (F : forall s, o = Vadd_fmt s -> zlen s <= 2147483647).
  { intros s ->. cbn [vstep] in R. unfold ubuf_add_fmt in R. destruct (unterm_spec esz v l H) as (v1 & EE & _).
    rewrite EE in R. cbn [bind] in R. destruct (2147483647 <? zlen s) eqn:C; [discriminate|lia]. }
  pose proof (step_spec esz E ok O v l o H P F) as X. rewrite R in X. cbn [okor] in X. destruct X as (X & Y).
  destruct (holds_len esz E v' _ X) as (X1 & _). specialize (Y NR). lia.
Qed.

(** C56.  [_detach] hands over a block whose first elements are the contents, and leaves an empty buffer. *)
Theorem C56_detach : forall esz ok v l, 1 <= esz <= 2 ^ 16 -> sane ok -> holds esz v l ->
  match vec_detach esz ok v with
  | Ok ((blk, n), v') => n = zlen l /\ firstn (Z.to_nat n) blk = map Some l /\ holds esz v' []
  | UB AssertFail => exists b, b < 2 ^ 48 /\ ok b = false
  | _ => False
  end.
Proof.
  intros esz ok v l E O H. pose proof (detach_spec esz E ok O v l H) as X.
  destruct (vec_detach esz ok v) as [((blk, n), v')|r|[]|]; auto. tauto.
Qed.

(** C56.  [_extend] appends the contents of another buffer. *)
Theorem C56_extend : forall esz ok v w l k, 1 <= esz <= 2 ^ 16 -> sane ok -> holds esz v l -> holds esz w k ->
  match vec_extend esz ok v w with
  | Ok v' => holds esz v' (l ++ k) | UB AssertFail => exists b, b < 2 * (zlen l + zlen k) * esz /\ ok b = false | _ => False
  end.
Proof.
  intros esz ok v w l k E O H K. pose proof (extend_spec esz E ok O v w l k H K) as S. unfold okor in S.
  destruct (vec_extend esz ok v w) as [v'|r|[]|]; auto. exact (proj1 S).
Qed.

(** C56.  [ubuf_cstr] points at the contents followed by exactly one NUL (added unless already there), and
    [ubuf_dup_cstr] makes a buffer with the string's octets. *)
Theorem C56_cstr : forall ok v l, sane ok -> holds 1 v l ->
  match ubuf_cstr 1 ok v with
  | Ok (blk, v') => exists t junk, blk = map Some (t ++ [0]) ++ junk /\ holds 1 v' (t ++ [0]) /\ (l = t \/ l = t ++ [0])
  | UB AssertFail => True
  | _ => False
  end.
Proof.
  intros ok v l O H. unfold ubuf_cstr. pose proof (cterm_spec 1 ltac:(lia) ok O v l H) as S. unfold okor in S.
  destruct (ubuf_cterm 1 ok v) as [v'|r|[]|]; cbn [bind]; auto.
  destruct S as (S & _). cbn [lstep] in S.
  assert (X : exists t, (match rev l with 0 :: _ => l | _ => l ++ [0] end) = t ++ [0] /\ (l = t \/ l = t ++ [0])).
  { destruct (rev l) as [|b r] eqn:R.
    - exists l. auto.
    - assert (L : l = rev r ++ [b]) by (rewrite <- (rev_involutive l), R; reflexivity).
      destruct b as [|p|p]; [exists (rev r); subst l; auto|exists l; auto|exists l; auto]. }
  destruct X as (t & X1 & X2). rewrite X1 in S. assert (S' := S). destruct S' as ((junk & B) & _). exists t, junk. auto.
Qed.

Theorem C56_dup : forall ok s, sane ok ->
  match ubuf_dup_cstr 1 ok s with Ok v => holds 1 v s | UB AssertFail => True | _ => False end.
Proof.
  intros ok s O. unfold ubuf_dup_cstr.
  pose proof (init_spec 1 ltac:(lia) ok O ((zlen s + 1) mod 2 ^ 32) ltac:(apply Z.mod_pos_bound; lia)) as S. unfold okor in S.
  destruct (vec_init 1 ok ((zlen s + 1) mod 2 ^ 32)) as [v|r|[]|]; cbn [bind]; auto.
  destruct S as (S & _).
  pose proof (append_spec 1 ltac:(lia) ok O v [] s S) as A. unfold okor in A.
  destruct (vec_append 1 ok v s) as [v'|r|[]|]; auto. exact (proj1 A).
Qed.

(** Non-vacuity: a history that grows, clips, terminates, formats and resets a two-element buffer. *)
Definition C56_all (b : Z) : bool := b <? 2 ^ 63.
Definition C56_hist : list ((Z -> bool) * vop) :=
  map (fun o => (C56_all, o))
    [Vappend [1;2;3;4;5]; Vadd 6; Vset 0 [9]; Vclip 3; Vcterm; Vadd_fmt [7;8]; Vrstrip 8; Vadd_cstr [50]; Vreserve 9].

Example C56_ex_run : exists v v', vec_init 1 C56_all 2 = Ok v /\ vrun 1 v C56_hist = Ok v' /\
  lrun [] C56_hist = [9;2;3;7;50] /\ v_n v' = 5 /\ v_alloced v' = 16.
Proof. eexists. eexists. split; [reflexivity|]. vm_compute. repeat split. Qed.

Example C56_ex_hyps : sane C56_all /\ Forall (fun x => sane (fst x)) C56_hist /\ vpre [] C56_hist /\ small_history 1 [] C56_hist.
Proof.
  assert (S : sane C56_all) by (intros b; unfold C56_all; lia).
  split; [exact S|]. split.
  { unfold C56_hist. apply Forall_forall. intros x X. apply in_map_iff in X. destruct X as (o & <- & _). exact S. }
  split.
  - vm_compute. repeat split; discriminate.
  - assert (A : forall b, b < 2 ^ 63 -> C56_all b = true) by (intros b; unfold C56_all; lia).
    unfold C56_hist. cbn [map small_history].
    repeat match goal with
    | |- _ /\ _ => split
    | |- forall b, b < 2 ^ 63 -> _ => exact A
    | |- forall s, _ = Vadd_fmt s -> _ => let s := fresh in let E := fresh in intros s E; try discriminate; injection E as <-; vm_compute; discriminate
    | |- True => exact I
    | |- _ <= _ => vm_compute; discriminate
    end.
Qed.

Print Assumptions C56_new.
Print Assumptions C56_list.
Print Assumptions C56_no_abort.
Print Assumptions C56_value.
Print Assumptions C56_capacity.
Print Assumptions C56_detach.
Print Assumptions C56_extend.
Print Assumptions C56_cstr.
Print Assumptions C56_dup.

(** _advance never moves the write pointer past the allocated space: it aborts instead. *)
Theorem C56_advance : forall esz v l x, 1 <= esz -> holds esz v l -> 0 <= x < 2 ^ 64 ->
  if zlen l + x <=? v_alloced v
  then exists v', vec_advance v x = Ok v' /\ v_blk v' = v_blk v /\ vec_size v' = zlen l + x /\ v_p v' = zlen l + x /\ vec_size v' <= zlen (v_blk v')
  else vec_advance v x = UB AssertFail.
Proof.
  intros esz v l x E ((junk & B) & HL & HN & HP & HH & HA & HB) X. unfold vec_advance. rewrite HN.
  assert (LA : zlen l <= v_alloced v). { rewrite B, zlen_app, zlen_map in HL. pose proof (zlen_nonneg _ junk). lia. }
  assert (AB : v_alloced v < 2 ^ 63) by (change (2 ^ 63) with 9223372036854775808 in *; nia).
  pose proof (zlen_nonneg _ l).
  assert (W : szt (v_alloced v - zlen l) = v_alloced v - zlen l) by (unfold szt; apply Z.mod_small; lia). rewrite W.
  destruct (zlen l + x <=? v_alloced v) eqn:C.
  - replace (v_alloced v - zlen l <? x) with false by lia.
    assert (W2 : szt (zlen l + x) = zlen l + x) by (unfold szt; apply Z.mod_small; lia). rewrite W2.
    eexists. split; [reflexivity|]. cbn [v_blk v_p vec_size v_n]. repeat (split; [reflexivity|]). lia.
  - replace (v_alloced v - zlen l <? x) with true by lia. reflexivity.
Qed.
Print Assumptions C56_advance.
Example C56_advance_ex : exists v, vec_init 1 (fun _ => true) 4 = Ok v /\ vec_advance v 5 = UB AssertFail /\ exists v', vec_advance v 4 = Ok v'.
Proof. eexists. split; [reflexivity|]. split; [reflexivity|]. eexists. reflexivity. Qed.
