(** PropRace.v: C87, C88: wdns_str_to_rdata called by several threads. Spec: SpecRace.v. *)
From Verif Require Import Base Lib ModelName Libc ModelFormat ModelFromStr ModelRace SpecRace ProofRace.

(** ** C87: calls that start when the table is complete, or that run alone, return what the specification of the single
    call says, however they are interleaved; every call returns under every fair schedule. *)

(** Without any other thread the call returns what [str_to_rdata] says, from a fresh process too. *)
Theorem C87_alone : forall s ty cl sched r, bytes_ok s -> returned (exec (start cold [(s, ty, cl)]) sched) 0 r -> r = str_to_rdata s ty cl.
Proof.
  intros s ty cl sched r B R. assert (S : sound [(s, ty, cl)] (start cold [(s, ty, cl)])) by (apply start_sound; [reflexivity|repeat constructor; exact B]).
  (* steps of threads that do not exist change nothing *)
  assert (H : forall sched p, length (p_threads p) = 1%nat -> exists n, exec p sched = exec p (repeat 0%nat n)).
  { clear. induction sched as [|i l IH]; intros p L; [exists 0%nat; reflexivity|]. cbn [exec fold_left]. destruct i as [|i].
    - destruct (IH (step p 0)) as (n & E).
      + unfold step. destruct (nth_error (p_threads p) 0) as [t|] eqn:N; [|exact L]. destruct (tstep (p_map p) t). cbn [p_threads]. rewrite app_length, firstn_length. cbn [length]. rewrite skipn_length. lia.
      + exists (S n). exact E.
    - destruct (IH p L) as (n & E). exists n. replace (step p (S i)) with p; [exact E|]. unfold step. replace (nth_error (p_threads p) (S i)) with (@None pc); [reflexivity|]. symmetry. apply nth_error_None. lia. }
  destruct (H sched (start cold [(s, ty, cl)]) eq_refl) as (n & E). rewrite E in R.
  destruct (solo_quiet n _ (start cold [(s, ty, cl)]) 0 S) as [Q _]; [left; reflexivity|]. destruct (exec_sound _ _ _ S Q) as [S1 _].
  eapply sound_returned; [exact S1|exact R|reflexivity].
Qed.
Print Assumptions C87_alone.

(** With a complete table any number of calls may overlap in any way. *)
Theorem C87_concurrent : forall m calls sched i s ty cl r, complete m -> calls_ok calls -> nth_error calls i = Some (s, ty, cl) ->
  returned (exec (start m calls) sched) i r -> r = str_to_rdata s ty cl.
Proof.
  intros m calls sched i s ty cl r C K N R. assert (S : sound calls (start m calls)) by (apply start_sound; [apply C|exact K]).
  destruct (exec_sound sched _ _ S) as [S1 _]; [eapply complete_quiet; [exact S|exact C]|]. eapply sound_returned; eauto.
Qed.
Print Assumptions C87_concurrent.

(** One call that used the decoder, finished before any other call is made, is enough to complete the table. *)
Theorem C87_after_first : forall calls k n r0 sched i s ty cl r, calls_ok calls ->
  let p := exec (start cold calls) (repeat k n) in
  returned p k r0 -> nth 0 (p_map p) 0 <> 0 -> nth_error calls i = Some (s, ty, cl) ->
  complete (p_map p) /\ (returned (exec p sched) i r -> r = str_to_rdata s ty cl).
Proof.
  intros calls k n r0 sched i s ty cl r K p R0 NZ N. assert (S : sound calls (start cold calls)) by (apply start_sound; [reflexivity|exact K]).
  destruct (solo_quiet n calls (start cold calls) k S) as [Q D].
  { unfold idle. destruct (nth_error _ k) as [[| |]|]; auto; left; reflexivity. }
  destruct (exec_sound _ _ _ S Q) as [S1 _]. fold p in S1, D. assert (C : complete (p_map p)).
  { unfold idle in D. unfold returned in R0. rewrite R0 in D. destruct D as [D|D]; [destruct (NZ D)|exact D]. }
  split; [exact C|]. intros R. destruct (exec_sound sched _ _ S1) as [S2 _]; [eapply complete_quiet; eauto|]. eapply sound_returned; eauto.
Qed.
Print Assumptions C87_after_first.

(** Whatever the table and whatever the others do, a call whose thread goes on being scheduled returns: nobody waits. *)
Theorem C87_returns : forall m calls (f : nat -> nat) i, (i < length calls)%nat -> (forall n, exists k, f (n + k)%nat = i) ->
  exists k r, returned (exec (start m calls) (map f (seq 0 k))) i r.
Proof.
  intros m calls f i L F. destruct (nth_error calls i) as [c|] eqn:N; [|apply nth_error_None in N; lia].
  apply (returns f i (spawn c)); [destruct c as [[s ty] cl]; apply acc_run|exact F|]. unfold start. cbn [p_threads]. apply map_nth_error, N.
Qed.
Print Assumptions C87_returns.

(** NSEC3 texts; the first call alone fills the table, two more then overlap step by step. *)
Definition nsec3_a := lit "1 0 1 - 14 A".
Definition nsec3_b := lit "1 0 1 ab 91IMOR3F A NS".
Example C87_ex :
  let calls := [(nsec3_a, 50, 1); (nsec3_b, 50, 1); (nsec3_b, 50, 1)] in
  let p := exec (start cold calls) (repeat 0%nat 262) in
  let q := exec p (List.concat (repeat [1%nat; 2%nat] 15)) in
  returned p 0 (Ok [1; 0; 0; 1; 0; 1; 9; 0; 1; 64]) /\ nth 0 (p_map p) 0 <> 0 /\
  returned q 1 (Ok [1; 0; 0; 1; 1; 171; 5; 72; 101; 108; 108; 111; 0; 1; 96]) /\
  returned q 2 (Ok [1; 0; 0; 1; 1; 171; 5; 72; 101; 108; 108; 111; 0; 1; 96]) /\
  str_to_rdata nsec3_b 50 1 = Ok [1; 0; 0; 1; 1; 171; 5; 72; 101; 108; 108; 111; 0; 1; 96].
Proof. cbv zeta. unfold returned. repeat split; vm_compute; try reflexivity. discriminate. Qed.

(** ** C88: the first use of the decoder by two threads at once *)

(** Any interleaving from program start is right, provided no thread looks at the table while it is half filled. *)
Theorem C88_cold_partial : forall calls sched i s ty cl r, calls_ok calls -> quiet (start cold calls) sched ->
  nth_error calls i = Some (s, ty, cl) -> returned (exec (start cold calls) sched) i r -> r = str_to_rdata s ty cl.
Proof.
  intros calls sched i s ty cl r K Q N R. assert (S : sound calls (start cold calls)) by (apply start_sound; [reflexivity|exact K]).
  destruct (exec_sound sched _ _ S Q) as [S1 _]. eapply sound_returned; eauto.
Qed.
Print Assumptions C88_cold_partial.

(** Otherwise: thread 0 has filled in one entry when thread 1 looks. Thread 1 takes every digit for 0: it reports success
    with a wrong hash, and accepts a text that is not base32 at all. *)
Theorem C88_cold_refuted : exists calls sched r, calls_ok calls /\
  returned (exec (start cold calls) sched) 1 r /\ r = Ok [1; 0; 0; 1; 0; 1; 0; 0; 1; 64] /\
  str_to_rdata nsec3_a 50 1 = Ok [1; 0; 0; 1; 0; 1; 9; 0; 1; 64] /\ nth_error calls 1 = Some (nsec3_a, 50, 1).
Proof.
  exists [(nsec3_a, 50, 1); (nsec3_a, 50, 1)], ([0; 0] ++ repeat 1 5)%nat, (Ok [1; 0; 0; 1; 0; 1; 0; 0; 1; 64]).
  split; [repeat constructor; cbn; lia|]. unfold returned. repeat split; vm_compute; reflexivity.
Qed.
Print Assumptions C88_cold_refuted.
Theorem C88_garbage_accepted_refuted : exists calls sched r, calls_ok calls /\
  returned (exec (start cold calls) sched) 1 (Ok r) /\ nth_error calls 1 = Some (lit "1 0 1 - !? A", 50, 1) /\
  str_to_rdata (lit "1 0 1 - !? A") 50 1 = Err res_parse_error.
Proof.
  exists [(nsec3_a, 50, 1); (lit "1 0 1 - !? A", 50, 1)], ([0; 0] ++ repeat 1 5)%nat, [1; 0; 0; 1; 0; 1; 0; 0; 1; 64].
  split; [repeat constructor; cbn; lia|]. unfold returned. repeat split; vm_compute; reflexivity.
Qed.
Print Assumptions C88_garbage_accepted_refuted.
