(** PropGetenv.v: C133-C134 (libmy/getenv_int.h), for every value of the environment variable. *)
From Verif Require Import Base Lib Libc ModelGetenv SpecGetenv.

Definition dig (b c : Z) : Prop := 0 <= hexval c < b.
Lemma hexval_dec : forall c, dig 10 c <-> decimal c. Proof. intros c. unfold dig, hexval, decimal. repeat match goal with |- context [if ?x then _ else _] => destruct x eqn:? end; lia. Qed.
Lemma hexval_oct : forall c, dig 8 c <-> octal c. Proof. intros c. unfold dig, hexval, octal. repeat match goal with |- context [if ?x then _ else _] => destruct x eqn:? end; lia. Qed.
Lemma hexval_hex : forall c, dig 16 c <-> hexadecimal c. Proof. intros c. unfold dig, hexval, hexadecimal. repeat match goal with |- context [if ?x then _ else _] => destruct x eqn:? end; lia. Qed.
Lemma hexval_value : forall c, 0 <= hexval c -> hexval c = digit_value c. Proof. intros c. unfold hexval, digit_value. repeat match goal with |- context [if ?x then _ else _] => destruct x eqn:? end; lia. Qed.
Definition fold_in (b acc : Z) (s : bytes) : Z := fold_left (fun v c => v * b + digit_value c) s acc.
Definition no_dig (b : Z) (r : bytes) : Prop := match r with c :: _ => ~ dig b c | [] => True end.
Lemma scan_base_spec : forall b s acc seen, exists ds r, s = ds ++ r /\ Forall (dig b) ds /\ no_dig b r /\ scan_base b s acc seen = (fold_in b acc ds, seen || match ds with [] => false | _ => true end, r).
Proof.
  intros b. induction s as [|c s IH]; intros acc seen; cbn [scan_base].
  - exists [], []. repeat split; auto. cbn. rewrite orb_false_r. auto.
  - destruct ((0 <=? hexval c) && (hexval c <? b)) eqn:E.
    + destruct (IH (acc * b + hexval c) true) as (ds & r & -> & F & N & Q). exists (c :: ds), r. rewrite Q. assert (dig b c) by (unfold dig; lia). repeat split; auto. unfold fold_in. cbn [fold_left]. rewrite <- hexval_value by (unfold dig in *; lia). rewrite orb_true_r. auto.
    + exists [], (c :: s). repeat split; auto; [cbn; unfold dig; lia|]. cbn. rewrite orb_false_r. auto.
Qed.
Lemma scan_base_all : forall b ds acc seen, Forall (dig b) ds -> scan_base b ds acc seen = (fold_in b acc ds, seen || match ds with [] => false | _ => true end, []).
Proof.
  intros b. induction ds as [|c ds IH]; intros acc seen F; cbn [scan_base].
  - cbn. rewrite orb_false_r. auto.
  - inversion F as [|? ? D F']; subst. replace ((0 <=? hexval c) && (hexval c <? b)) with true by (unfold dig in D; lia). rewrite IH by auto. unfold fold_in. cbn [fold_left]. rewrite <- hexval_value by (unfold dig in D; lia). rewrite orb_true_r. auto.
Qed.
Definition body (t : bytes) : Z * bool * bytes :=
    match t with
    | z :: x :: t' => if (z =? 48) && (toupper x =? 88) then
                        let '(v, seen, r) := scan_base 16 t' 0 false in if seen then (v, true, r) else (0, true, x :: t')
                      else scan_base (if z =? 48 then 8 else 10) t 0 false
    | [z] => scan_base (if z =? 48 then 8 else 10) t 0 false
    | [] => (0, false, [])
    end.
Lemma strtoul_body : forall s, strtoul_0 s = (let '(neg, t) := scan_sign (skip_space s) in let '(v, seen, r) := body t in if seen then ((if v >? 2^64 - 1 then 2^64 - 1 else if neg then (- v) mod 2^64 else v), r) else (0, s)).
Proof. reflexivity. Qed.
Lemma toupper_x : forall x, toupper x =? 88 = true <-> x = 120 \/ x = 88. Proof. intros x. unfold toupper. destruct ((97 <=? x) && (x <=? 122)) eqn:E; lia. Qed.
Lemma body_plain : forall z t, ((z =? 48) && match t with x :: _ => toupper x =? 88 | [] => false end) = false -> body (z :: t) = scan_base (if z =? 48 then 8 else 10) (z :: t) 0 false.
Proof. intros z [|x t] E; cbn [body]; [auto|]. rewrite E. auto. Qed.
Lemma fold_nonneg : forall b s acc, 0 <= b -> 0 <= acc -> Forall (fun c => 0 <= digit_value c) s -> 0 <= fold_in b acc s.
Proof. intros b. induction s as [|c s IH]; intros acc B A F; [exact A|]. inversion F; subst. apply IH; auto. nia. Qed.
Lemma value_nonneg : forall b s, 0 <= b -> Forall (fun c => 0 <= digit_value c) s -> 0 <= value_in b s.
Proof. intros b s B F. exact (fold_nonneg b s 0 B ltac:(lia) F). Qed.
Lemma body_constant : forall s v, constant s v -> body s = (v, true, []) /\ 0 <= v /\ exists c r, s = c :: r /\ 48 <= c <= 57.
Proof.
  intros s v C. destruct C as [c s C F|s F|x s X N F].
  - assert (Fd : Forall (dig 10) (c :: s)) by (constructor; [apply hexval_dec; unfold decimal; lia|eapply Forall_impl; [|exact F]; intros; apply hexval_dec; auto]). split; [|split; [|exists c, s; split; [auto|lia]]].
    + rewrite body_plain by (replace (c =? 48) with false by lia; auto). replace (c =? 48) with false by lia. rewrite scan_base_all by auto. reflexivity.
    + apply value_nonneg; [lia|]. eapply Forall_impl; [|exact Fd]. intros d D. cbn. rewrite <- hexval_value; unfold dig in D; lia.
  - assert (Fd : Forall (dig 8) s) by (eapply Forall_impl; [|exact F]; intros; apply hexval_oct; auto). split; [|split; [|exists 48, s; split; [auto|lia]]].
    + rewrite body_plain. 2:{ destruct s as [|x s]; [auto|]. inversion F as [|? ? O F']; subst. unfold octal in O. unfold toupper. replace (97 <=? x) with false by lia. cbn. lia. }
      cbn [Z.eqb Pos.eqb]. rewrite scan_base_all; [|constructor; auto; apply hexval_oct; unfold octal; lia]. reflexivity.
    + apply value_nonneg; [lia|]. eapply Forall_impl; [|exact Fd]. intros d D. cbn. rewrite <- hexval_value; unfold dig in D; lia.
  - assert (Fd : Forall (dig 16) s) by (eapply Forall_impl; [|exact F]; intros; apply hexval_hex; auto). split; [|split; [|exists 48, (x :: s); split; [auto|lia]]].
    + cbn [body]. replace ((48 =? 48) && (toupper x =? 88)) with true by (rewrite (proj2 (toupper_x x)) by tauto; auto). rewrite scan_base_all by auto. destruct s; [contradiction|]. reflexivity.
    + apply value_nonneg; [lia|]. eapply Forall_impl; [|exact Fd]. intros d D. cbn. rewrite <- hexval_value; unfold dig in D; lia.
Qed.
Lemma body_inv : forall t v, body t = (v, true, []) -> constant t v.
Proof.
  intros [|z t] v E; [discriminate|]. destruct ((z =? 48) && match t with x :: _ => toupper x =? 88 | [] => false end) eqn:P.
  - destruct t as [|x t]; [rewrite andb_false_r in P; discriminate|]. cbn [body] in E. rewrite P in E. apply andb_prop in P as [Z X]. apply toupper_x in X. assert (z = 48) by lia. subst z.
    destruct (scan_base_spec 16 t 0 false) as (ds & r & -> & F & N & Q). rewrite Q in E. destruct ds as [|d ds]; cbn [orb] in E; [discriminate|]. injection E as <- ->. rewrite app_nil_r. apply (c_hex x (d :: ds)); [tauto|discriminate|]. eapply Forall_impl; [|exact F]. intros; apply hexval_hex; auto.
  - rewrite body_plain in E by exact P. destruct (z =? 48) eqn:Z.
    + destruct (scan_base_spec 8 (z :: t) 0 false) as (ds & r & A & F & N & Q). rewrite Q in E. destruct ds as [|d ds]; cbn [orb] in E; [discriminate|]. injection E as <- ->. rewrite app_nil_r in A. injection A as <- ->. assert (z = 48) by lia. subst z.
      inversion F; subst. apply (c_oct ds). eapply Forall_impl; [|eassumption]. intros; apply hexval_oct; auto.
    + destruct (scan_base_spec 10 (z :: t) 0 false) as (ds & r & A & F & N & Q). rewrite Q in E. destruct ds as [|d ds]; cbn [orb] in E; [discriminate|]. injection E as <- ->. rewrite app_nil_r in A. injection A as <- ->.
      inversion F as [|? ? D F']; subst. apply hexval_dec in D. unfold decimal in D. apply (c_dec z ds); [lia|]. eapply Forall_impl; [|exact F']. intros; apply hexval_dec; auto.
Qed.
Lemma isspace_white : forall c, isspace c = true <-> white c. Proof. intros c. unfold isspace, white. lia. Qed.
Lemma skip_white : forall w s, Forall white w -> match s with c :: _ => ~ white c | [] => True end -> skip_space (w ++ s) = s.
Proof.
  induction w as [|c w IH]; intros s F N; cbn [app skip_space].
  - destruct s as [|c s]; cbn [skip_space]; [auto|]. destruct (isspace c) eqn:E; [apply isspace_white in E; contradiction|auto].
  - inversion F as [|? ? W F']; subst. apply isspace_white in W. rewrite W. apply IH; auto.
Qed.
Lemma skip_split : forall s, exists w, Forall white w /\ s = w ++ skip_space s.
Proof. induction s as [|c s [w [F E]]]; cbn [skip_space]; [exists []; auto|]. destruct (isspace c) eqn:Q; [|exists []; auto]. exists (c :: w). split; [constructor; [apply isspace_white; auto|auto]|]. cbn. congruence. Qed.
Lemma ulong_pos : forall v, 0 <= v -> (if v >? 2^64 - 1 then 2^64 - 1 else v) = as_ulong v.
Proof. intros v V. unfold as_ulong. rewrite Z.abs_eq by auto. destruct (v >? 2^64 - 1) eqn:E; [replace (v >=? 2^64) with true by lia; auto|]. replace (v >=? 2^64) with false by lia. rewrite Z.mod_small; lia. Qed.
Lemma ulong_neg : forall v, 0 <= v -> (if v >? 2^64 - 1 then 2^64 - 1 else (- v) mod 2^64) = as_ulong (- v).
Proof. intros v V. unfold as_ulong. rewrite Z.abs_opp, Z.abs_eq by auto. destruct (v >? 2^64 - 1) eqn:E; [replace (v >=? 2^64) with true by lia; auto|]. replace (v >=? 2^64) with false by lia. auto. Qed.
Lemma strtoul_numeral : forall s v, numeral s v -> strtoul_0 s = (as_ulong v, []).
Proof.
  intros s v N. destruct N as [w s v F C|w s v F C|w s v F C]; destruct (body_constant s v C) as (B & V & c & r & E & R); rewrite strtoul_body.
  - rewrite skip_white; [|auto|rewrite E; unfold white; lia]. replace (scan_sign s) with (false, s) by (rewrite E; cbn; replace (c =? 45) with false by lia; replace (c =? 43) with false by lia; auto). rewrite B. f_equal. apply ulong_pos. auto.
  - rewrite skip_white; [|auto|unfold white; lia]. cbn [scan_sign Z.eqb Pos.eqb]. rewrite B. f_equal. apply ulong_pos. auto.
  - rewrite skip_white; [|auto|unfold white; lia]. cbn [scan_sign Z.eqb Pos.eqb]. rewrite B. f_equal. apply ulong_neg. auto.
Qed.
Lemma strtoul_inv : forall s u, strtoul_0 s = (u, []) -> s = [] \/ exists v, numeral s v.
Proof.
  intros s u E. rewrite strtoul_body in E. destruct (skip_split s) as (w & F & Sp). destruct (scan_sign (skip_space s)) as [neg t] eqn:G. destruct (body t) as [[v seen] r] eqn:B. destruct seen; [|left; congruence].
  assert (r = []) by congruence. subst r. apply body_inv in B. right. unfold scan_sign in G. destruct (skip_space s) as [|c q] eqn:K; [injection G as <- <-; inversion B|].
  destruct (Z.eqb_spec c 45) as [->|]; [injection G as <- <-; exists (- v); rewrite Sp; apply n_minus; auto|]. destruct (Z.eqb_spec c 43) as [->|]; injection G as <- <-; exists v; rewrite Sp; [apply n_plus|apply n_plain]; auto.
Qed.

(** ** C133 *)
(** An unset variable gives false and leaves the value. *)
Theorem C133_unset : forall old, getenv_int None old = (false, old). Proof. reflexivity. Qed.
Print Assumptions C133_unset.
(** A variable that is an integer as C writes them, after white space and with a sign at most, gives true and this integer as an unsigned long. *)
Theorem C133_value : forall s v old, numeral s v -> getenv_int (Some s) old = (true, as_ulong v).
Proof. intros s v old N. unfold getenv_int. rewrite (strtoul_numeral s v N). reflexivity. Qed.
Print Assumptions C133_value.
(** Every other one but the empty string gives false. *)
Theorem C133_only : forall s old, fst (getenv_int (Some s) old) = true <-> s = [] \/ exists v, numeral s v.
Proof.
  intros s old. split.
  - unfold getenv_int. destruct (strtoul_0 s) as [u t] eqn:E. destruct t; [|discriminate]. intros _. eapply strtoul_inv; eauto.
  - intros [->|[v N]]; [reflexivity|]. rewrite (C133_value s v old N). reflexivity.
Qed.
Print Assumptions C133_only.
(** The value is never outside unsigned long. *)
Theorem C133_range : forall env old, 0 <= old < 2^64 -> 0 <= snd (getenv_int env old) < 2^64.
Proof.
  intros [s|] old O; cbn [getenv_int]; [|exact O]. rewrite strtoul_body. destruct (scan_sign (skip_space s)) as [neg t]. destruct (body t) as [[v seen] r] eqn:B. destruct seen; cbn [snd]; [|lia].
  assert (0 <= v).
  { assert (P : forall b u, 0 <= b -> 0 <= fst (fst (scan_base b u 0 false))).
    { intros b u Hb. destruct (scan_base_spec b u 0 false) as (ds & r' & _ & F & _ & Q). rewrite Q. cbn [fst]. apply fold_nonneg; try lia. eapply Forall_impl; [|exact F]. intros d D. cbn. rewrite <- hexval_value; unfold dig in D; lia. }
    destruct t as [|z [|x t']]; cbn [body] in B; [congruence| |].
    - specialize (P (if z =? 48 then 8 else 10) [z] ltac:(destruct (z =? 48); lia)). rewrite B in P. exact P.
    - destruct ((z =? 48) && (toupper x =? 88)).
      + specialize (P 16 t' ltac:(lia)). destruct (scan_base 16 t' 0 false) as [[v' seen'] r']. cbn [fst] in P. destruct seen'; injection B as <- _; lia.
      + specialize (P (if z =? 48 then 8 else 10) (z :: x :: t') ltac:(destruct (z =? 48); lia)). rewrite B in P. exact P. }
  destruct (v >? 2^64 - 1) eqn:G; [lia|]. destruct neg; [apply Z.mod_pos_bound; lia|lia].
Qed.
Print Assumptions C133_range.
Ltac lits := repeat match goal with |- context [lit ?x] => let l := eval vm_compute in (lit x) in change (lit x) with l end.
Example C133_example : numeral (lit " -0x1F") (-31) /\ numeral (lit "0755") 493 /\ numeral (lit "+90") 90 /\ getenv_int (Some (lit " -0x1F")) 7 = (true, 18446744073709551585) /\ fst (getenv_int (Some (lit "08")) 7) = false.
Proof.
  split; [|split; [|split; [|vm_compute; auto]]].
  - apply (n_minus [32] (lit "0x1F") 31); [repeat (apply Forall_cons; [unfold white; lia|]); constructor|]. apply (c_hex 120 (lit "1F")); [auto|discriminate|]. lits; repeat (apply Forall_cons; [unfold hexadecimal; lia|]); constructor.
  - apply (n_plain [] (lit "0755") 493); [constructor|]. apply (c_oct (lit "755")). lits; repeat (apply Forall_cons; [unfold octal; lia|]); constructor.
  - apply (n_plus [] (lit "90") 90); [constructor|]. apply (c_dec 57 (lit "0")); [lia|]. lits; repeat (apply Forall_cons; [unfold decimal; lia|]); constructor.
Qed.

(** ** C134: true only for a number that is the value; false leaves the value *)
(** The empty string is accepted as 0, an integer too large as 2^64 - 1, a negative one as a large one, and a false return has overwritten the value. *)
Theorem C134_getenv_refuted :
  (forall old, getenv_int (Some []) old = (true, 0) /\ ~ exists v, numeral [] v) /\
  (forall s v old, numeral s v -> v >= 2^64 -> getenv_int (Some s) old = (true, 2^64 - 1)) /\
  (forall s v old, numeral s v -> - 2^64 < v < 0 -> getenv_int (Some s) old = (true, 2^64 + v)) /\
  (forall s a b, snd (getenv_int (Some s) a) = snd (getenv_int (Some s) b)) /\
  exists s v old, numeral s v /\ v >= 2^64 /\ getenv_int (Some s) old = (true, 2^64 - 1).
Proof.
  assert (B : forall s v old, numeral s v -> v >= 2^64 -> getenv_int (Some s) old = (true, 2^64 - 1)).
  { intros s v old N L. rewrite (C133_value s v old N). unfold as_ulong. replace (Z.abs v >=? 2^64) with true by lia. auto. }
  split; [|split; [exact B|split; [|split]]].
  - intros old. split; [reflexivity|]. intros [v N]. inversion N as [w s v' F C E|w s v' F C E|w s v' F C E]; destruct w; cbn in E; try discriminate. subst s. inversion C.
  - intros s v old N L. rewrite (C133_value s v old N). unfold as_ulong. replace (Z.abs v >=? 2^64) with false by lia. f_equal. rewrite <- (Z_mod_plus_full v 1). rewrite Z.mod_small; lia.
  - intros s a b. unfold getenv_int. destruct (strtoul_0 s); reflexivity.
  - assert (N : numeral (lit "18446744073709551616") (2^64)).
    { apply (n_plain [] (lit "18446744073709551616") (2^64)); [constructor|]. apply (c_dec 49 (lit "8446744073709551616")); [lia|]. lits; repeat (apply Forall_cons; [unfold decimal; lia|]); constructor. }
    exists (lit "18446744073709551616"), (2^64), 0. split; [exact N|]. split; [lia|]. apply (B _ _ 0 N). lia.
Qed.
Print Assumptions C134_getenv_refuted.
