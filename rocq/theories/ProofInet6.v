(** ProofInet6.v: fast_inet6_ntop and inet_pton. *)
From Verif Require Import Base Lib ModelName SpecName Libc ModelFormat SpecFormat ProofFormat ProofInet.

Lemma hexd_facts : forall v, 0 <= v < 16 -> hex_case false (hexd false v) /\ isxdigit (hexd false v) = true /\ hexval (hexd false v) = v /\
  (if hexd false v <=? 57 then hexd false v - 48 else hexd false v - 87) = v /\ (v <> 0 -> hexd false v <> 48).
Proof.
  intros v H. destruct (hexd_digit false v H) as (_ & A & B & _ & C). repeat split; auto.
  - unfold hexd. destruct (v <=? 9) eqn:E; [replace (48 + v <=? 57) with true by lia; lia|replace (87 + v <=? 57) with false by lia; lia].
  - unfold hexd. destruct (v <=? 9) eqn:E; lia.
Qed.

Lemma hexw_group : forall w, 0 <= w < 65536 -> group_text w (hexw w).
Proof.
  intros w H. unfold hexw.
  assert (D1 : 0 <= w / 16) by (apply Z.div_pos; lia).
  pose proof (Z.div_mod w 16 ltac:(lia)). pose proof (Z.mod_pos_bound w 16 ltac:(lia)).
  pose proof (Z.div_mod w 256 ltac:(lia)). pose proof (Z.mod_pos_bound w 256 ltac:(lia)).
  pose proof (Z.div_mod w 4096 ltac:(lia)). pose proof (Z.mod_pos_bound w 4096 ltac:(lia)).
  assert (E2 : w / 256 = w / 16 / 16) by (rewrite Z.div_div by lia; reflexivity).
  assert (E3 : w / 4096 = w / 16 / 16 / 16) by (rewrite !Z.div_div by lia; reflexivity).
  pose proof (Z.div_mod (w / 16) 16 ltac:(lia)). pose proof (Z.mod_pos_bound (w / 16) 16 ltac:(lia)).
  pose proof (Z.div_mod (w / 16 / 16) 16 ltac:(lia)). pose proof (Z.mod_pos_bound (w / 16 / 16) 16 ltac:(lia)).
  rewrite E2, E3.
  assert (N : forall c r, c <> 48 -> (c :: r = [48] \/ (exists c' r', c :: r = c' :: r' /\ c' <> 48))) by (intros; right; eauto).
  destruct (w <? 16) eqn:A; [|destruct (w <? 256) eqn:B; [|destruct (w <? 4096) eqn:C]];
    (split; [|split; [|split]]).
  - repeat (apply Forall_cons || apply Forall_nil); apply hexd_facts; lia.
  - unfold hex_value. cbn [fold_left]. destruct (hexd_facts w) as (_ & _ & _ & -> & _); lia.
  - cbn; lia.
  - destruct (Z.eq_dec w 0) as [-> |]; [left; reflexivity|apply N; apply hexd_facts; lia].
  - repeat (apply Forall_cons || apply Forall_nil); apply hexd_facts; lia.
  - unfold hex_value. cbn [fold_left]. destruct (hexd_facts (w / 16)) as (_ & _ & _ & -> & _); [lia|].
    destruct (hexd_facts (w mod 16)) as (_ & _ & _ & -> & _); lia.
  - cbn; lia.
  - apply N; apply hexd_facts; lia.
  - repeat (apply Forall_cons || apply Forall_nil); apply hexd_facts; lia.
  - unfold hex_value. cbn [fold_left]. destruct (hexd_facts (w / 16 / 16)) as (_ & _ & _ & -> & _); [lia|].
    destruct (hexd_facts (w / 16 mod 16)) as (_ & _ & _ & -> & _); [lia|].
    destruct (hexd_facts (w mod 16)) as (_ & _ & _ & -> & _); lia.
  - cbn; lia.
  - apply N; apply hexd_facts; lia.
  - repeat (apply Forall_cons || apply Forall_nil); apply hexd_facts; lia.
  - unfold hex_value. cbn [fold_left]. destruct (hexd_facts (w / 16 / 16 / 16)) as (_ & _ & _ & -> & _); [lia|].
    destruct (hexd_facts (w / 16 / 16 mod 16)) as (_ & _ & _ & -> & _); [lia|].
    destruct (hexd_facts (w / 16 mod 16)) as (_ & _ & _ & -> & _); [lia|].
    destruct (hexd_facts (w mod 16)) as (_ & _ & _ & -> & _); lia.
  - cbn; lia.
  - apply N; apply hexd_facts; lia.
Qed.

(** ** The best run *)
Fixpoint runs_b (bs : list bool) (i : Z) (best cur : Z * Z) : (Z * Z) * (Z * Z) :=
  match bs with
  | [] => (best, cur)
  | true :: r => runs_b r (i + 1) best (if fst cur =? -1 then (i, 1) else (fst cur, snd cur + 1))
  | false :: r =>
    if negb (fst cur =? -1) then
      runs_b r (i + 1) (if (fst best =? -1) || (snd cur >? snd best) then cur else best) (-1, snd cur)
    else runs_b r (i + 1) best cur
  end.
Definition best_b (bs : list bool) : Z * Z :=
  let '(best, cur) := runs_b bs 0 (-1, 0) (-1, 0) in
  let best := if negb (fst cur =? -1) then if (fst best =? -1) || (snd cur >? snd best) then cur else best else best in
  if negb (fst best =? -1) && (snd best <? 2) then (-1, snd best) else best.

Lemma runs_loop_b : forall ws i best cur, runs_loop ws i best cur = runs_b (map (fun w => w =? 0) ws) i best cur.
Proof.
  induction ws as [|w ws IH]; intros; [reflexivity|]. cbn [runs_loop map runs_b]. rewrite !IH. destruct (w =? 0); reflexivity.
Qed.
Lemma best_run_b : forall ws, best_run ws = best_b (map (fun w => w =? 0) ws).
Proof. intros. unfold best_run, best_b. rewrite runs_loop_b. reflexivity. Qed.

Fixpoint bools (n : nat) : list (list bool) :=
  match n with O => [[]] | S k => map (cons true) (bools k) ++ map (cons false) (bools k) end.
Lemma bools_all : forall bs, In bs (bools (length bs)).
Proof.
  induction bs as [|b bs IH]; [left; reflexivity|]. cbn [length bools]. apply in_or_app.
  destruct b; [left|right]; apply in_map_iff; eauto.
Qed.

(** Whether the words i .. i+n-1 are all zero. *)
Definition zeros_at (bs : list bool) (i n : nat) : bool := (Nat.leb (i + n) (length bs)) && forallb (fun b => b) (firstn n (skipn i bs)).
Definition check_best (bs : list bool) : bool :=
  let '(k, n) := best_b bs in
  if k =? -1 then forallb (fun i => negb (zeros_at bs i 2)) (seq 0 8)
  else (0 <=? k) && (2 <=? n) && (k + n <=? 8) && zeros_at bs (Z.to_nat k) (Z.to_nat n) &&
    forallb (fun i => negb (zeros_at bs i (S (Z.to_nat n)))) (seq 0 8) &&
    forallb (fun i => negb (zeros_at bs i (Z.to_nat n))) (seq 0 (Z.to_nat k)).

Lemma best_checked : forall bs, length bs = 8%nat -> check_best bs = true.
Proof.
  intros bs H. assert (G : forallb check_best (bools 8) = true) by (vm_compute; reflexivity).
  rewrite forallb_forall in G. apply G. rewrite <- H. apply bools_all.
Qed.

Lemma zeros_at_run : forall pre m n post, (n <= m)%nat ->
  zeros_at (map (fun w => w =? 0) (pre ++ repeat 0 m ++ post)) (length pre) n = true.
Proof.
  intros pre m n post H. unfold zeros_at. apply andb_true_intro. split.
  - apply Nat.leb_le. rewrite map_length, !app_length, repeat_length. lia.
  - rewrite skipn_map, firstn_map. rewrite skipn_app, Nat.sub_diag, skipn_all. cbn [skipn app].
    rewrite firstn_app, repeat_length. replace (n - m)%nat with 0%nat by lia. cbn [firstn]. rewrite app_nil_r.
    replace m with (n + (m - n))%nat by lia. rewrite repeat_app, firstn_app, repeat_length, Nat.sub_diag. cbn [firstn]. rewrite app_nil_r, firstn_all2 by (rewrite repeat_length; lia).
    clear. induction n; [reflexivity|]. cbn [repeat map forallb]. rewrite IHn. reflexivity.
Qed.

(** No run of two or more zero words; or [ws = pre ++ zeros ++ post] for the chosen run. *)
Lemma best_run_split : forall ws, length ws = 8%nat ->
  (fst (best_run ws) = -1 /\ forall pre post, ws <> pre ++ [0; 0] ++ post) \/
  exists pre n post, ws = pre ++ repeat 0 n ++ post /\ best_run ws = (Z.of_nat (length pre), Z.of_nat n) /\ (2 <= n)%nat /\
    first_longest ws (length pre) n.
Proof.
  intros ws H. pose proof (best_checked (map (fun w => w =? 0) ws)) as C. rewrite map_length in C. specialize (C H).
  unfold check_best in C. rewrite <- best_run_b in C. destruct (best_run ws) as [k n]. cbn [fst].
  destruct (k =? -1) eqn:K; [left|right].
  - split; [lia|]. intros pre post E. rewrite forallb_forall in C. specialize (C (length pre)).
    rewrite E in C. change [0; 0] with (repeat 0 2) in C. rewrite zeros_at_run in C by lia. discriminate C. apply in_seq. rewrite E, !app_length in H. simpl in H. lia.
  - apply andb_prop in C as [C M2]. apply andb_prop in C as [C M1].
    repeat (apply andb_prop in C as [C ?]). 
    assert (Z2 : forallb (fun b : bool => b) (firstn (Z.to_nat n) (skipn (Z.to_nat k) (map (fun w => w =? 0) ws))) = true).
    { unfold zeros_at in *. match goal with Z : _ && forallb (fun b : bool => b) _ = true |- _ => apply andb_prop in Z as [_ Z2] end. exact Z2. }
    assert (Z1 : (Z.to_nat k + Z.to_nat n <= 8)%nat) by lia.
    assert (Lp : length (firstn (Z.to_nat k) ws) = Z.to_nat k) by (rewrite firstn_length; lia).
    exists (firstn (Z.to_nat k) ws), (Z.to_nat n), (skipn (Z.to_nat n) (skipn (Z.to_nat k) ws)). split; [|split; [|split]].
    + rewrite <- (firstn_skipn (Z.to_nat k) ws) at 1. f_equal.
      rewrite <- (firstn_skipn (Z.to_nat n) (skipn (Z.to_nat k) ws)) at 1. f_equal.
      assert (L : length (firstn (Z.to_nat n) (skipn (Z.to_nat k) ws)) = Z.to_nat n).
      { rewrite firstn_length, skipn_length. lia. }
      rewrite skipn_map, firstn_map in Z2.
      revert L Z2. generalize (firstn (Z.to_nat n) (skipn (Z.to_nat k) ws)). generalize (Z.to_nat n).
      clear. intros n l <-. induction l as [|w l IH]; intros Z; [reflexivity|].
      cbn [map forallb] in Z. apply andb_prop in Z as [Z1 Z2]. cbn [length repeat]. f_equal; [lia|auto].
    + rewrite Lp. f_equal; lia.
    + lia.
    + intros pre m post E. rewrite Lp.
      assert (Lm : (length pre + m <= 8)%nat) by (rewrite E, !app_length, repeat_length in H; lia).
      destruct (Nat.lt_ge_cases m (Z.to_nat n)) as [?|G]; [left; auto|right].
      destruct (Nat.eq_dec m (Z.to_nat n)) as [-> |Ne].
      * split; [auto|]. destruct (Nat.le_gt_cases (Z.to_nat k) (length pre)) as [?|G2]; [auto|exfalso].
        rewrite forallb_forall in M2. specialize (M2 (length pre)). rewrite E in M2. rewrite zeros_at_run in M2 by lia. discriminate M2. apply in_seq. lia.
      * exfalso. rewrite forallb_forall in M1. specialize (M1 (length pre)). rewrite E in M1. rewrite zeros_at_run in M1 by lia. discriminate M1. apply in_seq. lia.
Qed.

(** ** The formatting loop *)
Definition sep (i w : Z) : bytes := (if i =? 0 then [] else [58]) ++ hexw w.
Fixpoint seps (i : Z) (ws : list Z) : bytes := match ws with [] => [] | w :: r => sep i w ++ seps (i + 1) r end.
Definition word_ok (w : Z) : Prop := 0 <= w < 65536.

Lemma hexw_len : forall w, word_ok w -> 1 <= zlen (hexw w) <= 4.
Proof.
  intros w H. unfold hexw. destruct (w <? 16); [cbn; lia|]. destruct (w <? 256); [cbn; lia|]. destruct (w <? 4096); cbn; lia.
Qed.

Lemma inet6_words : forall ws rest i best w5 last4 dst,
  Forall word_ok ws -> 0 <= i -> i + zlen ws <= 8 -> zlen dst <= 5 * i ->
  (forall j, i <= j < i + zlen ws -> fst best = -1 \/ j < fst best \/ fst best + snd best <= j) ->
  (i <= 6 < i + zlen ws -> fst best = 0 -> snd best = 6 \/ (snd best = 5 /\ w5 = 65535) -> False) ->
  inet6_loop (ws ++ rest) i best w5 last4 46 dst = inet6_loop rest (i + zlen ws) best w5 last4 46 (dst ++ seps i ws)
  /\ zlen (dst ++ seps i ws) <= 5 * (i + zlen ws).
Proof.
  induction ws as [|w ws IH]; intros rest i best w5 last4 dst F Hi B L R V.
  - cbn [app seps]. rewrite app_nil_r. change (zlen (@nil Z)) with 0. rewrite Z.add_0_r. auto.
  - inversion F as [|? ? Hw F']; subst. rewrite zlen_cons in *. pose proof (zlen_nonneg _ ws). cbn [app inet6_loop].
    replace (negb (fst best =? -1) && (i >=? fst best) && (i <? fst best + snd best)) with false
      by (specialize (R i ltac:(lia)); lia).
    replace ((i =? 6) && (fst best =? 0) && ((snd best =? 6) || ((snd best =? 5) && (w5 =? 65535)))) with false.
    2: { symmetry. apply not_true_is_false. intros T. apply V; lia. }
    pose proof (hexw_len w Hw). unfold word_ok in Hw.
    assert (P : (if negb (i =? 0) then push 46 dst [58] else Ok dst) = Ok (dst ++ (if i =? 0 then [] else [58]))).
    { destruct (i =? 0); cbn [negb]; [rewrite app_nil_r; reflexivity|apply push_ok; change (zlen [58]) with 1; lia]. }
    rewrite P. cbn [bind]. rewrite print_hex_spec by lia. cbn [bind].
    assert (zlen (if i =? 0 then [] else [58]) <= 1) by (destruct (i =? 0); cbn; lia).
    rewrite push_ok by (rewrite zlen_app; lia). cbn [bind]. cbn [seps]. unfold sep.
    rewrite <- (app_assoc dst). 
    assert (Q1 : zlen (dst ++ (if i =? 0 then [] else [58]) ++ hexw w) <= 5 * (i + 1)) by (rewrite !zlen_app; lia).
    assert (Q2 : forall j, i + 1 <= j < i + 1 + zlen ws -> fst best = -1 \/ j < fst best \/ fst best + snd best <= j)
      by (intros j Hj; apply R; lia).
    assert (Q3 : i + 1 <= 6 < i + 1 + zlen ws -> fst best = 0 -> snd best = 6 \/ (snd best = 5 /\ w5 = 65535) -> False)
      by (intros Hj; apply V; lia).
    destruct (IH rest (i + 1) best w5 last4 (dst ++ (if i =? 0 then [] else [58]) ++ hexw w) F' ltac:(lia) ltac:(lia) Q1 Q2 Q3) as [E1 E2].
    rewrite E1. rewrite <- !app_assoc in *. replace (i + (zlen ws + 1)) with (i + 1 + zlen ws) by lia. auto.
Qed.

Lemma inet6_zeros : forall n rest i best w5 last4 dst,
  fst best <> -1 -> fst best < i -> i + Z.of_nat n <= fst best + snd best ->
  inet6_loop (repeat 0 n ++ rest) i best w5 last4 46 dst = inet6_loop rest (i + Z.of_nat n) best w5 last4 46 dst.
Proof.
  induction n as [|n IH]; intros rest i best w5 last4 dst H1 H2 H3.
  - cbn [repeat app]. change (Z.of_nat 0) with 0. rewrite Z.add_0_r. reflexivity.
  - cbn [repeat app inet6_loop]. replace (negb (fst best =? -1) && (i >=? fst best) && (i <? fst best + snd best)) with true by lia.
    replace (i =? fst best) with false by lia. cbn [bind]. rewrite IH by lia. f_equal. lia.
Qed.

Lemma inet6_run : forall n rest w5 last4 dst k,
  0 <= k -> (2 <= n)%nat -> zlen dst <= 5 * k -> k <= 6 ->
  inet6_loop (repeat 0 n ++ rest) k (k, Z.of_nat n) w5 last4 46 dst =
  inet6_loop rest (k + Z.of_nat n) (k, Z.of_nat n) w5 last4 46 (dst ++ [58]).
Proof.
  intros n rest w5 last4 dst k H1 H2 H3 H4. destruct n as [|n]; [lia|].
  cbn [repeat app inet6_loop fst snd]. replace (negb (k =? -1) && (k >=? k) && (k <? k + Z.of_nat (S n))) with true by lia.
  rewrite Z.eqb_refl. rewrite push_ok by (change (zlen [58]) with 1; lia). cbn [bind].
  rewrite inet6_zeros by (cbn [fst snd]; lia). f_equal. lia.
Qed.

(** Groups joined by colons. *)
Fixpoint join (ws : list Z) : bytes :=
  match ws with [] => [] | [w] => hexw w | w :: r => hexw w ++ 58 :: join r end.
Lemma join_cons : forall w x r, join (w :: x :: r) = hexw w ++ 58 :: join (x :: r).
Proof. reflexivity. Qed.

Lemma seps_pos : forall ws i, 0 < i -> ws <> [] -> seps i ws = 58 :: join ws.
Proof.
  induction ws as [|w [|x r] IH]; intros i Hi H; [congruence| |].
  - cbn [seps]. unfold sep. replace (i =? 0) with false by lia. rewrite app_nil_r. reflexivity.
  - change (seps i (w :: x :: r)) with (sep i w ++ seps (i + 1) (x :: r)). rewrite IH by (try lia; discriminate).
    rewrite join_cons. unfold sep. replace (i =? 0) with false by lia. reflexivity.
Qed.
Lemma seps_0 : forall ws, seps 0 ws = join ws.
Proof.
  intros [|w [|x r]]; [reflexivity| |].
  - cbn [seps]. unfold sep. cbn. rewrite app_nil_r. reflexivity.
  - change (seps 0 (w :: x :: r)) with (sep 0 w ++ seps 1 (x :: r)). rewrite seps_pos by (try lia; discriminate). reflexivity.
Qed.

Lemma join_groups : forall ws, Forall word_ok ws -> ws <> [] -> groups_text ws (join ws).
Proof.
  induction ws as [|w [|x r] IH]; intros F H; [congruence| |]; inversion F; subst.
  - constructor. apply hexw_group; auto.
  - rewrite join_cons. constructor; [apply hexw_group; auto|]. apply IH; auto; discriminate.
Qed.
Lemma join_opt : forall ws, Forall word_ok ws -> groups_opt ws (join ws).
Proof. intros [|w r] F; [left; auto|right; apply join_groups; auto; discriminate]. Qed.

(** ** Octets and words *)
Lemma lor_shift8 : forall a b, is_byte b -> Z.lor (Z.shiftl a 8) b = a * 256 + b.
Proof. intros a b H. unfold is_byte in H. rewrite Z.shiftl_mul_pow2 by lia. apply (lor_add a b 8); lia. Qed.

Lemma words_octets : forall n a, bytes_ok a -> length a = (2 * n)%nat ->
  length (words_of a) = n /\ Forall word_ok (words_of a) /\ word_octets (words_of a) = a.
Proof.
  induction n as [|n IH]; intros a H L.
  - destruct a; [|discriminate]. repeat split; constructor.
  - destruct a as [|x [|y a]]; try (simpl in L; lia). apply bytes_ok_cons in H as [Hx H]. apply bytes_ok_cons in H as [Hy H].
    destruct (IH a H) as (A & B & C); [simpl in L; lia|]. cbn [words_of]. rewrite lor_shift8 by auto. unfold is_byte in *.
    split; [cbn [length]; lia|]. split; [constructor; auto; unfold word_ok; lia|].
    unfold word_octets in *. cbn [map concat]. rewrite C. cbn [app].
    assert (D : (x * 256 + y) / 256 = x) by (rewrite Z.div_add_l by lia; rewrite (Z.div_small y) by lia; lia).
    assert (M : (x * 256 + y) mod 256 = y) by (rewrite Z.mod_eq by lia; lia).
    rewrite D, M. reflexivity.
Qed.

(** ** inet_pton on groups *)
Lemma pton6_hex : forall s r tmp cp ct nx val, Forall (fun c => isxdigit c = true) s -> 0 <= nx -> nx + zlen s <= 4 ->
  pton6_loop (s ++ r) tmp cp ct nx val = pton6_loop r tmp cp ct (nx + zlen s) (fold_left (fun a c => a * 16 + hexval c) s val).
Proof.
  induction s as [|c s IH]; intros r tmp cp ct nx val F H L.
  - change (zlen (@nil Z)) with 0. rewrite Z.add_0_r. reflexivity.
  - inversion F; subst. rewrite zlen_cons in *. pose proof (zlen_nonneg _ s). cbn [app pton6_loop fold_left].
    rewrite H2. replace (nx =? 4) with false by lia. rewrite IH by (auto; lia). f_equal. lia.
Qed.

Lemma hexw_xdigits : forall w, word_ok w -> Forall (fun c => isxdigit c = true) (hexw w) /\ fold_left (fun a c => a * 16 + hexval c) (hexw w) 0 = w.
Proof.
  intros w H. destruct (hexw_group w H) as (F & V & _ & _). split.
  - eapply Forall_impl; [|exact F]. intros c. unfold hex_case, isxdigit, hexval. intros [?|?].
    + replace ((48 <=? c) && (c <=? 57)) with true by lia. lia.
    + replace ((48 <=? c) && (c <=? 57)) with false by lia. replace ((65 <=? c) && (c <=? 70)) with false by lia.
      replace ((97 <=? c) && (c <=? 102)) with true by lia. lia.
  - transitivity (hex_value (hexw w)); [|exact V]. unfold hex_value. generalize 0. revert F. generalize (hexw w). clear.
    induction l as [|c l IH]; intros F z; [reflexivity|]. inversion F as [|? ? Hc F']; subst. cbn [fold_left]. rewrite <- IH by auto. f_equal. f_equal.
    unfold hexval. unfold hex_case in Hc. destruct Hc.
    + replace ((48 <=? c) && (c <=? 57)) with true by lia. replace (c <=? 57) with true by lia. reflexivity.
    + replace ((48 <=? c) && (c <=? 57)) with false by lia. replace ((65 <=? c) && (c <=? 70)) with false by lia.
      replace ((97 <=? c) && (c <=? 102)) with true by lia. replace (c <=? 57) with false by lia. reflexivity.
Qed.

Lemma pton6_word : forall w r tmp cp ct, word_ok w ->
  pton6_loop (hexw w ++ r) tmp cp ct 0 0 = pton6_loop r tmp cp ct (zlen (hexw w)) w.
Proof.
  intros w r tmp cp ct H. destruct (hexw_xdigits w H) as [F V]. pose proof (hexw_len w H).
  rewrite pton6_hex by (auto; lia). rewrite V. reflexivity.
Qed.

Lemma join_nonempty : forall ws, Forall word_ok ws -> ws <> [] -> exists c r, join ws = c :: r /\ isxdigit c = true.
Proof.
  intros [|w r] F H; [congruence|]. inversion F; subst. destruct (hexw_xdigits w H2) as [X _]. pose proof (hexw_len w H2).
  assert (E : exists c t, hexw w = c :: t). { destruct (hexw w); [cbn in *; lia|eauto]. } destruct E as (c & t & E). rewrite E in X. inversion X; subst.
  destruct r; [exists c, t; cbn [join]; auto|]. exists c, (t ++ 58 :: join (z :: r)). rewrite join_cons, E. auto.
Qed.

Lemma pton6_colon_word : forall r tmp cp ct nx val, 0 < nx -> r <> [] -> zlen tmp + 2 <= 16 ->
  pton6_loop (58 :: r) tmp cp ct nx val = pton6_loop r (tmp ++ [val / 256; val mod 256]) cp r 0 0.
Proof.
  intros r tmp cp ct nx val H1 H2 H3. cbn [pton6_loop]. change (isxdigit 58) with false. change (58 =? 58) with true.
  replace (nx =? 0) with false by lia. destruct r; [congruence|]. replace (zlen tmp + 2 >? 16) with false by lia. reflexivity.
Qed.
Lemma pton6_colon_gap : forall r tmp ct,
  pton6_loop (58 :: r) tmp None ct 0 0 = pton6_loop r tmp (Some (zlen tmp)) r 0 0.
Proof. reflexivity. Qed.

Lemma word_octets_cons : forall w ws, word_octets (w :: ws) = [w / 256; w mod 256] ++ word_octets ws.
Proof. reflexivity. Qed.
Lemma word_octets_app : forall a b, word_octets (a ++ b) = word_octets a ++ word_octets b.
Proof. intros. unfold word_octets. rewrite map_app, concat_app. reflexivity. Qed.
Lemma word_octets_len : forall ws, zlen (word_octets ws) = 2 * zlen ws.
Proof. induction ws as [|w ws IH]; [reflexivity|]. rewrite word_octets_cons, zlen_app, (zlen_cons _ w ws), IH. change (zlen [w / 256; w mod 256]) with 2. lia. Qed.
Lemma word_octets_zeros : forall n, word_octets (repeat 0 n) = repeat 0 (2 * n).
Proof.
  induction n as [|n IH]; [reflexivity|]. replace (2 * S n)%nat with (S (S (2 * n))) by lia. cbn [repeat]. rewrite word_octets_cons, IH. reflexivity.
Qed.

(** Groups followed by the end of the text: the last one is still pending. *)
Lemma pton6_join_end : forall ws tmp cp ct, Forall word_ok ws -> ws <> [] -> zlen tmp + 2 * zlen ws <= 16 ->
  exists tmp' nx val, pton6_loop (join ws) tmp cp ct 0 0 = Some (tmp', cp, nx, val) /\ 0 < nx /\
    tmp' ++ [val / 256; val mod 256] = tmp ++ word_octets ws /\ zlen tmp' + 2 = zlen tmp + 2 * zlen ws.
Proof.
  induction ws as [|w [|x r] IH]; intros tmp cp ct F H L; [congruence| |]; inversion F; subst.
  - cbn [join]. rewrite <- (app_nil_r (hexw w)), pton6_word by auto. cbn [pton6_loop].
    pose proof (hexw_len w H2). exists tmp, (zlen (hexw w)), w. repeat split; auto; lia.
  - rewrite join_cons, pton6_word by auto. pose proof (hexw_len w H2).
    destruct (join_nonempty (x :: r) H3) as (c & t & E & _); [discriminate|].
    rewrite zlen_cons in *. pose proof (zlen_nonneg _ r). rewrite zlen_cons in *.
    rewrite pton6_colon_word by (try lia; rewrite E; discriminate).
    destruct (IH (tmp ++ [w / 256; w mod 256]) cp (join (x :: r)) H3) as (tmp' & nx & val & E1 & E2 & E3 & E4);
      [discriminate|rewrite zlen_app; change (zlen [w / 256; w mod 256]) with 2; lia|].
    exists tmp', nx, val. rewrite E1. repeat split; auto.
    + rewrite E3. rewrite (word_octets_cons w), <- app_assoc. reflexivity.
    + rewrite E4, zlen_app. change (zlen [w / 256; w mod 256]) with 2. lia.
Qed.

(** Groups followed by "::". *)
Lemma pton6_join_gap : forall ws tmp ct r, Forall word_ok ws -> ws <> [] -> zlen tmp + 2 * zlen ws <= 16 ->
  pton6_loop (join ws ++ 58 :: 58 :: r) tmp None ct 0 0 =
  pton6_loop r (tmp ++ word_octets ws) (Some (zlen tmp + 2 * zlen ws)) r 0 0.
Proof.
  induction ws as [|w [|x t] IH]; intros tmp ct r F H L; [congruence| |]; inversion F; subst.
  - cbn [join]. rewrite pton6_word by auto. pose proof (hexw_len w H2). change (2 * zlen [w]) with 2 in *.
    rewrite pton6_colon_word by (try lia; discriminate). rewrite pton6_colon_gap. rewrite zlen_app. reflexivity.
  - rewrite join_cons, <- app_assoc, pton6_word by auto. pose proof (hexw_len w H2). cbn [app].
    destruct (join_nonempty (x :: t) H3) as (c & t' & E & _); [discriminate|].
    rewrite zlen_cons in *. pose proof (zlen_nonneg _ t). rewrite zlen_cons in *.
    rewrite pton6_colon_word by (try lia; rewrite E; discriminate).
    rewrite IH by (auto; try discriminate; rewrite zlen_app, ?(zlen_cons _ x); change (zlen [w / 256; w mod 256]) with 2; lia).
    rewrite zlen_app, ?(zlen_cons _ x). change (zlen [w / 256; w mod 256]) with 2. rewrite (word_octets_cons w), <- app_assoc.
    f_equal. f_equal. lia.
Qed.

(** ** Reading the two textual forms *)
Lemma isxdigit_not_colon : forall c, isxdigit c = true -> c =? 58 = false.
Proof. intros c H. destruct (c =? 58) eqn:E; auto. apply Z.eqb_eq in E. subst. discriminate. Qed.

Lemma pton6_full : forall ws, length ws = 8%nat -> Forall word_ok ws -> inet_pton6 (join ws) = Some (word_octets ws).
Proof.
  intros ws L F. assert (N : ws <> []) by (destruct ws; discriminate). assert (Z8 : zlen ws = 8) by (unfold zlen; lia).
  destruct (join_nonempty ws F N) as (c & t & E & X). unfold inet_pton6. rewrite E. rewrite isxdigit_not_colon by auto. rewrite <- E.
  destruct (pton6_join_end ws [] None (join ws) F N) as (tmp & nx & val & R & P & S & T); [change (zlen (@nil Z)) with 0; lia|].
  rewrite R. change (zlen (@nil Z)) with 0 in T. replace ((nx >? 0) && (zlen tmp + 2 >? 16)) with false by lia.
  replace (nx >? 0) with true by lia. rewrite S. cbn [app]. rewrite word_octets_len. replace (2 * zlen ws =? 16) with true by lia. reflexivity.
Qed.

Lemma assemble : forall pre post n, (length pre + n + length post = 8)%nat -> (1 <= n)%nat ->
  (if zlen (word_octets pre ++ word_octets post) =? 16 then None
   else Some (firstn (Z.to_nat (2 * zlen pre)) (word_octets pre ++ word_octets post) ++
      repeat 0 (Z.to_nat (16 - zlen (word_octets pre ++ word_octets post))) ++
      skipn (Z.to_nat (2 * zlen pre)) (word_octets pre ++ word_octets post)))
  = Some (word_octets (pre ++ repeat 0 n ++ post)).
Proof.
  intros pre post n L N. rewrite zlen_app, !word_octets_len.
  assert (zlen pre + zlen post = 8 - Z.of_nat n) by (unfold zlen; lia).
  replace (2 * zlen pre + 2 * zlen post =? 16) with false by lia.
  rewrite firstn_app_exact, skipn_app_exact by apply word_octets_len.
  replace (Z.to_nat (16 - (2 * zlen pre + 2 * zlen post))) with (2 * n)%nat by lia.
  rewrite !word_octets_app, word_octets_zeros. reflexivity.
Qed.

Lemma pton6_run : forall pre post n, (length pre + n + length post = 8)%nat -> (1 <= n)%nat ->
  Forall word_ok pre -> Forall word_ok post ->
  inet_pton6 (join pre ++ 58 :: 58 :: join post) = Some (word_octets (pre ++ repeat 0 n ++ post)).
Proof.
  intros pre post n L N Fa Fb. rewrite <- (assemble pre post n L N).
  assert (Q : zlen pre + zlen post = 8 - Z.of_nat n) by (unfold zlen; lia).
  pose proof (zlen_nonneg _ pre) as Npre. pose proof (zlen_nonneg _ post) as Npost.
  assert (R : exists s, (match (join pre ++ 58 :: 58 :: join post) with
         | [] => None
         | c :: r => if c =? 58 then match r with d :: _ => if d =? 58 then Some r else None | [] => None end else Some (join pre ++ 58 :: 58 :: join post)
         end) = Some s /\ pton6_loop s [] None s 0 0 = pton6_loop (join post) (word_octets pre) (Some (2 * zlen pre)) (join post) 0 0).
  { destruct pre as [|w pre].
    - exists (58 :: join post). split; reflexivity.
    - exists (join (w :: pre) ++ 58 :: 58 :: join post). split.
      + destruct (join_nonempty (w :: pre) Fa) as (c & t & E & X); [discriminate|]. rewrite E. cbn [app]. rewrite isxdigit_not_colon by auto. reflexivity.
      + rewrite pton6_join_gap by (auto; try discriminate; change (zlen (@nil Z)) with 0; lia). reflexivity. }
  destruct R as (s & R1 & R2). unfold inet_pton6. rewrite R1, R2. clear R1 R2 s.
  destruct post as [|w post].
  - cbn [join pton6_loop]. replace ((0 >? 0) && (zlen (word_octets pre) + 2 >? 16)) with false by reflexivity.
    change (0 >? 0) with false. cbv iota zeta. change (word_octets []) with (@nil Z). rewrite app_nil_r. reflexivity.
  - destruct (pton6_join_end (w :: post) (word_octets pre) (Some (2 * zlen pre)) (join (w :: post)) Fb) as (tmp & nx & val & R & P & S & T);
      [discriminate|rewrite word_octets_len; lia|].
    rewrite R. rewrite word_octets_len in T. replace ((nx >? 0) && (zlen tmp + 2 >? 16)) with false by lia.
    replace (nx >? 0) with true by lia. cbv zeta. rewrite S. reflexivity.
Qed.

(** ** Embedded IPv4 *)
Lemma digits_xdigits : forall s, Forall digit s -> Forall (fun c => isxdigit c = true) s.
Proof. intros s F. eapply Forall_impl; [|exact F]. intros c. unfold digit, isxdigit, hexval. intros. replace ((48 <=? c) && (c <=? 57)) with true by lia. lia. Qed.

Lemma pton6_v4 : forall a b c d tmp cp, is_byte a -> is_byte b -> is_byte c -> is_byte d -> zlen tmp + 4 <= 16 ->
  pton6_loop (text4 a b c d) tmp cp (text4 a b c d) 0 0 = Some (tmp ++ [a; b; c; d], cp, 0, 0).
Proof.
  intros a b c d tmp cp Ha Hb Hc Hd L.
  assert (P : inet_pton4 (text4 a b c d) = Some [a; b; c; d]).
  { apply inet_pton4_text; [apply text4_spec; auto|repeat (apply Forall_cons || apply Forall_nil); auto]. }
  unfold text4 at 1. destruct (fmt_byte a Ha) as (F & _). destruct (inet4_digits a Ha) as [_ La].
  rewrite pton6_hex by (auto using digits_xdigits; lia). cbn [pton6_loop]. change (isxdigit 46) with false. change (46 =? 58) with false.
  change (46 =? 46) with true. replace (zlen tmp + 4 <=? 16) with true by lia. cbn [andb]. rewrite P. reflexivity.
Qed.

Lemma text4_head : forall a b c d, is_byte a -> exists x r, text4 a b c d = x :: r /\ isxdigit x = true.
Proof.
  intros a b c d Ha. pose proof (decimal_nonempty _ _ (fmt_byte a Ha)). destruct (fmt_byte a Ha) as (F & _).
  unfold text4. destruct (fmt_u a) as [|x r]; [congruence|]. apply digits_xdigits in F. inversion F; subst. cbn [app]. eauto.
Qed.

(** The result of the formatting, by shape; the shape of the address. *)
Definition mixed (best : Z * Z) (w5 : Z) : bool := (fst best =? 0) && ((snd best =? 6) || ((snd best =? 5) && (w5 =? 65535))).

Lemma inet6_end : forall i best w5 last4 dst, inet6_loop [] i best w5 last4 46 dst = Ok (Some dst).
Proof. reflexivity. Qed.

Definition text6_ok (a : bytes) (s : bytes) : Prop := zlen s <= 45 /\ ipv6_text a s /\ inet_pton6 s = Some a.

Lemma mapped_groups : inet_pton6 [58; 58] = Some (repeat 0 16).
Proof. reflexivity. Qed.

Lemma inet6_ntop_spec : forall a rest, bytes_ok a -> zlen a = 16 ->
  exists s, inet6_ntop (a ++ rest) 46 = Ok (Some s) /\ text6_ok a s.
Proof.
  intros a rest H L. unfold inet6_ntop. change (46 <? 46) with false. cbv iota. rewrite take_rd_app by auto. cbn [bind].
  destruct (words_octets 8 a H) as (WL & WF & WO); [unfold zlen in L; lia|].
  set (ws := words_of a) in *.
  assert (adv12 : adv (a ++ rest) 12 = skipn 12 a ++ rest).
  { unfold adv. change (Z.to_nat 12) with 12%nat. rewrite skipn_app. replace (12 - length a)%nat with 0%nat by (unfold zlen in L; lia). reflexivity. }
  destruct (best_run_split ws WL) as [[B NR]|(pre & n & post & Ews & B & Hn & FL)].
  - (* no compression *)
    assert (L8 : zlen ws = 8) by (unfold zlen; lia).
    destruct (inet6_words ws [] 0 (best_run ws) (nth 5 ws 0) (adv (a ++ rest) 12) []) as [E1 E2]; auto; try lia.
    + change (zlen (@nil Z)) with 0. lia.
    + rewrite app_nil_r in E1. rewrite E1, inet6_end. cbn [bind app]. rewrite B. change (-1 =? -1) with true. cbn [negb andb].
      cbn [app] in E2. rewrite seps_0 in *. cbn [bind]. rewrite push_ok by (change (zlen [0]) with 1; lia). cbn [bind].
      replace (zlen (join ws) + 1 >? 46) with false by lia. exists (join ws). split; auto. split; [lia|]. split.
      * apply v6_full with ws; auto. apply join_groups; auto. destruct ws; discriminate.
      * rewrite pton6_full by auto. congruence.
  - assert (Lsum : (length pre + n + length post = 8)%nat) by (rewrite <- WL, Ews, !app_length, repeat_length; lia).
    assert (Fpre : Forall word_ok pre) by (rewrite Ews in WF; apply Forall_app in WF; tauto).
    assert (Fpost : Forall word_ok post) by (rewrite Ews in WF; rewrite !Forall_app in WF; tauto).
    rewrite B. cbn [fst snd].
    clearbody ws. replace (inet6_loop ws 0) with (inet6_loop (pre ++ repeat 0 n ++ post) 0) by (rewrite <- Ews; reflexivity).
    destruct (inet6_words pre (repeat 0 n ++ post) 0 (Z.of_nat (length pre), Z.of_nat n) (nth 5 ws 0) (adv (a ++ rest) 12) []) as [E1 E2]; auto;
      try (cbn [fst snd]; unfold zlen; try lia; simpl; lia).
    rewrite E1. cbn [app] in *. rewrite seps_0 in *. 
    replace (0 + zlen pre) with (Z.of_nat (length pre)) in * by (unfold zlen; lia).
    rewrite inet6_run by (try lia; unfold zlen in *; lia).
    set (best := (Z.of_nat (length pre), Z.of_nat n)) in *.
    set (i := Z.of_nat (length pre) + Z.of_nat n).
    destruct (mixed best (nth 5 ws 0)) eqn:M.
    + (* embedded IPv4 *)
      unfold mixed in M. subst best. cbn [fst snd] in M. apply andb_prop in M as [M1 M2].
      assert (pre = []) by (destruct pre; [reflexivity|simpl in M1; lia]). subst pre. cbn [length app] in *.
      assert (A : exists v0 v1 v2 v3, skipn 12 a = [v0; v1; v2; v3] /\ is_byte v0 /\ is_byte v1 /\ is_byte v2 /\ is_byte v3).
      { do 12 (destruct a as [|? a]; [cbn in L; lia|]). do 4 (destruct a as [|? a]; [cbn in L; lia|]).
        destruct a; [|exfalso; unfold zlen in L; cbn [length] in L; lia]. unfold bytes_ok in H.
        repeat (match goal with F : Forall is_byte (_ :: _) |- _ => inversion F; clear F; subst end). cbn [skipn]. do 4 eexists. split; [reflexivity|auto]. }
      destruct A as (v0 & v1 & v2 & v3 & A & B0 & B1 & B2 & B3). rewrite adv12, A.
      change ([v0; v1; v2; v3] ++ rest) with (v0 :: v1 :: v2 :: v3 :: rest).
      destruct (inet4_ntop_spec v0 v1 v2 v3 rest 44 B0 B1 B2 B3 ltac:(lia)) as [T1 T2].
      destruct (inet4_ntop_spec v0 v1 v2 v3 rest 39 B0 B1 B2 B3 ltac:(lia)) as [T3 _].
      destruct (text4_head v0 v1 v2 v3 B0) as (x & tl4 & Ex & Xx).
      assert (Ea : a = firstn 12 a ++ [v0; v1; v2; v3]) by (rewrite <- A; symmetry; apply firstn_skipn).
      destruct (Nat.eq_dec n 6) as [-> |N6].
      * destruct post as [|w6 [|w7 [|? ?]]]; try (simpl in Lsum; lia). subst i. change (Z.of_nat 0 + Z.of_nat 6) with 6. change (join []) with (@nil Z). cbn [inet6_loop app fst snd].
        change (negb (Z.of_nat 0 =? -1) && (6 >=? Z.of_nat 0) && (6 <? Z.of_nat 0 + Z.of_nat 6)) with false. cbv iota.
        change (negb (6 =? 0)) with true. cbv iota. change (push 46 [58] [58]) with (@Ok bytes [58; 58]). cbn [bind].
        change ((6 =? 6) && (Z.of_nat 0 =? 0) && ((Z.of_nat 6 =? 6) || (Z.of_nat 6 =? 5) && (nth 5 ws 0 =? 65535))) with true. cbv iota.
        change (46 - zlen [58; 58]) with 44. rewrite T1. cbn [bind]. change (Z.of_nat 0 + Z.of_nat 6 =? 8) with false. rewrite andb_false_r. cbn [bind].
        rewrite push_ok by (rewrite zlen_app; change (zlen [58; 58]) with 2; change (zlen [0]) with 1; lia). cbn [bind].
        exists ([58; 58] ++ text4 v0 v1 v2 v3). rewrite zlen_app. change (zlen [58; 58]) with 2.
        replace (2 + zlen (text4 v0 v1 v2 v3) + 1 >? 46) with false by lia. split; [reflexivity|].
        assert (E12 : a = repeat 0 12 ++ [v0; v1; v2; v3]).
        { rewrite Ea at 1. f_equal. rewrite <- WO, Ews. reflexivity. }
        split; [rewrite zlen_app; change (zlen [58; 58]) with 2; lia|]. split.
        -- apply v6_compat with v0 v1 [v2; v3]; auto; [|apply text4_spec; auto]. intros Z01. injection Z01 as -> ->.
           assert (w6 = 0). { rewrite E12 in WO. rewrite Ews in WO. unfold word_octets in WO. cbn in WO. injection WO as Q1 Q2 _ _.
             rewrite (Z.div_mod w6 256) by lia. lia. }
           subst w6. destruct (FL [] 7%nat [w7]); [exact Ews| |]; lia.
        -- unfold inet_pton6. cbn [app]. change (58 =? 58) with true. cbv iota. rewrite pton6_colon_gap.
           rewrite pton6_v4 by (auto; cbn; lia). cbn [app]. change (0 >? 0) with false. cbn [andb]. 
           change (zlen [v0; v1; v2; v3] =? 16) with false. cbv iota. rewrite E12. reflexivity.
      * assert (n = 5%nat /\ nth 5 ws 0 = 65535) as [-> E5] by lia.
        destruct post as [|w5 [|w6 [|w7 [|? ?]]]]; try (simpl in Lsum; lia).
        assert (w5 = 65535) by (rewrite Ews in E5; exact E5). subst w5.
        subst i. change (Z.of_nat 0 + Z.of_nat 5) with 5. change (join []) with (@nil Z). cbn [inet6_loop app fst snd].
        change (negb (Z.of_nat 0 =? -1) && (5 >=? Z.of_nat 0) && (5 <? Z.of_nat 0 + Z.of_nat 5)) with false. cbv iota.
        change (negb (5 =? 0)) with true. cbv iota. change (push 46 [58] [58]) with (@Ok bytes [58; 58]). cbn [bind].
        change ((5 =? 6) && (Z.of_nat 0 =? 0) && ((Z.of_nat 5 =? 6) || (Z.of_nat 5 =? 5) && (nth 5 ws 0 =? 65535))) with false. cbv iota.
        change (print_hex_uint16 65535) with (@Ok bytes [102; 102; 102; 102]). cbn [bind]. change (push 46 [58; 58] [102; 102; 102; 102]) with (@Ok bytes [58; 58; 102; 102; 102; 102]). cbn [bind].
        change (negb (Z.of_nat 0 =? -1) && (5 + 1 >=? Z.of_nat 0) && (5 + 1 <? Z.of_nat 0 + Z.of_nat 5)) with false. cbv iota.
        change (negb (5 + 1 =? 0)) with true. cbv iota. change (push 46 [58; 58; 102; 102; 102; 102] [58]) with (@Ok bytes [58; 58; 102; 102; 102; 102; 58]). cbn [bind].
        rewrite E5. change ((5 + 1 =? 6) && (Z.of_nat 0 =? 0) && ((Z.of_nat 5 =? 6) || (Z.of_nat 5 =? 5) && (65535 =? 65535))) with true. cbv iota.
        change (46 - zlen [58; 58; 102; 102; 102; 102; 58]) with 39. rewrite T3. cbn [bind]. change (Z.of_nat 0 + Z.of_nat 5 =? 8) with false. rewrite andb_false_r. cbn [bind].
        rewrite push_ok by (rewrite zlen_app; change (zlen [58; 58; 102; 102; 102; 102; 58]) with 7; change (zlen [0]) with 1; lia). cbn [bind].
        exists ([58; 58; 102; 102; 102; 102; 58] ++ text4 v0 v1 v2 v3). rewrite zlen_app. change (zlen [58; 58; 102; 102; 102; 102; 58]) with 7.
        replace (7 + zlen (text4 v0 v1 v2 v3) + 1 >? 46) with false by lia. split; [reflexivity|].
        assert (E12 : a = repeat 0 10 ++ [255; 255] ++ [v0; v1; v2; v3]).
        { rewrite Ea at 1. rewrite app_assoc. f_equal. rewrite <- WO, Ews. reflexivity. }
        split; [rewrite zlen_app; change (zlen [58; 58; 102; 102; 102; 102; 58]) with 7; lia|]. split.
        -- apply v6_mapped with [v0; v1; v2; v3]; auto. apply text4_spec; auto.
        -- unfold inet_pton6. cbn [app]. change (58 =? 58) with true. cbv iota. rewrite pton6_colon_gap.
           change (102 :: 102 :: 102 :: 102 :: 58 :: text4 v0 v1 v2 v3) with (hexw 65535 ++ 58 :: text4 v0 v1 v2 v3).
           rewrite pton6_word by (unfold word_ok; lia). rewrite pton6_colon_word by (try (cbn; lia); rewrite Ex; discriminate).
           rewrite pton6_v4 by (auto; cbn; lia). change (0 >? 0) with false. cbn [andb]. change (65535 / 256) with 255. change (65535 mod 256) with 255. change (zlen (@nil Z)) with 0. cbn [app].
           change (zlen [255; 255; v0; v1; v2; v3] =? 16) with false. cbv iota. rewrite E12. reflexivity.
    + (* "::" form *)
      assert (Li : i + zlen post = 8) by (subst i; unfold zlen; lia).
      destruct (inet6_words post [] i best (nth 5 ws 0) (adv (a ++ rest) 12) (join pre ++ [58])) as [E3 E4]; auto; try lia.
      * subst i. rewrite zlen_app. change (zlen [58]) with 1. lia.
      * intros j Hj. subst best i. cbn [fst snd]. lia.
      * intros _ Q1 Q2. unfold mixed in M. lia.
      * rewrite app_nil_r in E3. rewrite E3, inet6_end. cbn [bind].
        assert (G : exists d, (if negb (Z.of_nat (length pre) =? -1) && (i =? 8)
            then push 46 ((join pre ++ [58]) ++ seps i post) [58] else Ok ((join pre ++ [58]) ++ seps i post)) = Ok d /\ d = join pre ++ 58 :: 58 :: join post).
        { replace (negb (Z.of_nat (length pre) =? -1)) with true by lia. cbn [andb]. destruct post as [|w post].
          - change (zlen (@nil Z)) with 0 in *. replace (i =? 8) with true by lia. rewrite push_ok by (change (zlen [58]) with 1; lia). eexists; split; [reflexivity|].
            cbn [seps join]. rewrite app_nil_r, <- app_assoc. reflexivity.
          - replace (i =? 8) with false by (rewrite zlen_cons in Li; pose proof (zlen_nonneg _ post); lia). eexists; split; [reflexivity|].
            rewrite seps_pos by (try discriminate; subst i; lia). rewrite <- app_assoc. reflexivity. }
        destruct G as (d & G1 & G2). rewrite G1. cbn [bind].
        assert (Ld : zlen d <= 41).
        { subst d. destruct post as [|w post]; [cbn [join]; rewrite zlen_app; change (zlen [58; 58]) with 2; subst i; unfold zlen in *; lia|].
          rewrite seps_pos in E4 by (try discriminate; subst i; lia). rewrite <- app_assoc in E4. cbn [app] in E4. lia. }
        rewrite push_ok by (change (zlen [0]) with 1; lia). cbn [bind]. replace (zlen d + 1 >? 46) with false by lia.
        exists d. split; [reflexivity|]. subst d. split; [lia|]. split.
        -- change (join pre ++ 58 :: 58 :: join post) with (join pre ++ [58; 58] ++ join post). apply v6_run with (pre := pre) (post := post) (n := n); auto using join_opt; [rewrite <- Ews; exact FL| |congruence]. intros [-> [-> |[-> HP]]]; unfold mixed in M; cbn [fst snd length] in M; [discriminate|].
           assert (nth 5 ws 0 = 65535) as E5 by (rewrite Ews; destruct post; [discriminate|exact HP]). rewrite E5 in M. discriminate.
        -- rewrite (pton6_run pre post n) by (auto; lia). congruence.
Qed.

(** ** Every text of SpecFormat is parsed, and it is unique. *)
Lemma hex_case_digit : forall c, hex_case false c -> exists v, 0 <= v < 16 /\ c = hexd false v /\ (if c <=? 57 then c - 48 else c - 87) = v.
Proof.
  intros c [H|H].
  - exists (c - 48). split; [lia|]. split; [unfold hexd; replace (c - 48 <=? 9) with true by lia; lia|replace (c <=? 57) with true by lia; reflexivity].
  - exists (c - 87). split; [lia|]. split; [unfold hexd; replace (c - 87 <=? 9) with false by lia; lia|replace (c <=? 57) with false by lia; reflexivity].
Qed.
Lemma group_unique : forall w s t, group_text w s -> group_text w t -> s = t.
Proof.
  assert (D : forall s, Forall (hex_case false) s -> exists vs, Forall (fun v => 0 <= v < 16) vs /\ s = map (hexd false) vs /\ hex_value s = fold_left (fun a v => a * 16 + v) vs 0).
  { intros s F. unfold hex_value. enough (forall z, exists vs, Forall (fun v => 0 <= v < 16) vs /\ s = map (hexd false) vs /\
      fold_left (fun a c => a * 16 + (if c <=? 57 then c - 48 else c - 87)) s z = fold_left (fun a v => a * 16 + v) vs z) by auto.
    induction F as [|c s H F IH]; intros z; [exists []; repeat split; constructor|].
    apply hex_case_digit in H as (v & V & E & X). destruct (IH (z * 16 + v)) as (vs & A & B & C). exists (v :: vs). split; [constructor; auto|]. split; [cbn [map]; congruence|].
    cbn [fold_left]. rewrite X. exact C. }
  assert (G : forall w s, group_text w s -> exists vs, Forall (fun v => 0 <= v < 16) vs /\ s = map (hexd false) vs /\ w = fold_left (fun a v => a * 16 + v) vs 0 /\
     (length vs <= 4)%nat /\ (vs = [0] \/ exists v r, vs = v :: r /\ v <> 0)).
  { intros w s (F & V & L & H). destruct (D s F) as (vs & A & B & C). exists vs. split; [auto|]. split; [auto|]. split; [congruence|].
    split; [subst s; unfold zlen in L; rewrite map_length in L; lia|]. destruct H as [H|(c & r & H & N)].
    - left. destruct vs as [|v [|]]; try (subst s; discriminate). rewrite B in H. cbn in H. injection H as H. inversion A; subst. f_equal. unfold hexd in H. destruct (v <=? 9) eqn:Q; lia.
    - right. destruct vs as [|v vs]; [subst s; discriminate|]. exists v, vs. split; [auto|]. intros ->. rewrite B in H. cbn in H. injection H as H _. unfold hexd in H. cbn in H. lia. }
  intros w s t Hs Ht. destruct (G w s Hs) as (xs & X1 & -> & X3 & X4 & X5). destruct (G w t Ht) as (ys & Y1 & -> & Y3 & Y4 & Y5). f_equal.
  clear G D Hs Ht.
  destruct xs as [|x0 [|x1 [|x2 [|x3 [|]]]]]; try (cbn in X4; lia); destruct ys as [|y0 [|y1 [|y2 [|y3 [|]]]]]; try (cbn in Y4; lia); cbn [fold_left] in *;
    repeat match goal with F : Forall _ (_ :: _) |- _ => inversion F; clear F; subst end; try reflexivity; 
    destruct X5 as [X5|(v & r & X5 & N)]; try discriminate; destruct Y5 as [Y5|(v' & r' & Y5 & N')]; try discriminate;
    repeat match goal with E : _ :: _ = _ :: _ |- _ => injection E as ?; subst end; try (exfalso; lia); repeat f_equal; lia.
Qed.
Lemma groups_join : forall ws s, groups_text ws s -> Forall word_ok ws -> s = join ws.
Proof.
  induction 1 as [w s H|w s ws t H G IH]; intros F; inversion F; subst.
  - cbn [join]. eapply group_unique; [eassumption|apply hexw_group; auto].
  - rewrite (IH H3). destruct ws as [|x ws]; [inversion G|]. rewrite join_cons. f_equal. eapply group_unique; [eassumption|apply hexw_group; auto].
Qed.
Lemma groups_opt_join : forall ws s, groups_opt ws s -> Forall word_ok ws -> s = join ws.
Proof. intros ws s [[-> ->]|G] F; [reflexivity|apply groups_join; auto]. Qed.
Lemma octets_words : forall ws, bytes_ok (word_octets ws) -> Forall word_ok ws.
Proof.
  induction ws as [|w ws IH]; intros B; [constructor|]. unfold word_octets in B. cbn [map concat] in B. apply bytes_ok_app in B as [B1 B2].
  apply bytes_ok_cons in B1 as [Hw _]. constructor; [|apply IH; exact B2]. unfold is_byte, word_ok in *. pose proof (Z.div_mod w 256 ltac:(lia)). pose proof (Z.mod_pos_bound w 256 ltac:(lia)). lia.
Qed.
Lemma ipv4_text4 : forall a s, ipv4_text a s -> bytes_ok a -> exists v0 v1 v2 v3, a = [v0; v1; v2; v3] /\ is_byte v0 /\ is_byte v1 /\ is_byte v2 /\ is_byte v3 /\ s = text4 v0 v1 v2 v3.
Proof.
  intros a s T B. pose proof T as (a0 & a1 & a2 & a3 & s0 & s1 & s2 & s3 & -> & D0 & D1 & D2 & D3 & ->).
  do 4 (apply bytes_ok_cons in B as [? B]). exists a0, a1, a2, a3. repeat (split; [auto|]). unfold text4.
  unfold is_byte in *.
  rewrite <- (decimal_fmt_u a0 s0), <- (decimal_fmt_u a1 s1), <- (decimal_fmt_u a2 s2), <- (decimal_fmt_u a3 s3) by (auto; lia). reflexivity.
Qed.
Lemma inet_pton6_text : forall a s, ipv6_text a s -> bytes_ok a -> inet_pton6 s = Some a.
Proof.
  intros a s T B. destruct T as [ws s L -> NR G|pre post n s t N2 L FL NM -> G1 G2|x y v4 s NZ -> T4|v4 s -> T4].
  - apply octets_words in B. rewrite (groups_join ws s) by auto. apply pton6_full; auto.
  - apply octets_words in B. rewrite !Forall_app in B. destruct B as (B1 & _ & B2). rewrite (groups_opt_join pre s), (groups_opt_join post t) by auto. apply pton6_run; auto; lia.
  - apply bytes_ok_app in B as [_ B]. destruct (ipv4_text4 _ _ T4 B) as (v0 & v1 & v2 & v3 & E & B0 & B1 & B2 & B3 & ->). rewrite E.
    unfold inet_pton6. cbn [app]. change (58 =? 58) with true. cbv iota. rewrite pton6_colon_gap. rewrite pton6_v4 by (auto; cbn; lia). reflexivity.
  - rewrite app_assoc in B. apply bytes_ok_app in B as [_ B]. destruct (ipv4_text4 _ _ T4 B) as (v0 & v1 & v2 & v3 & E & B0 & B1 & B2 & B3 & ->). subst v4.
    destruct (text4_head v0 v1 v2 v3 B0) as (x & tl4 & Ex & Xx).
    unfold inet_pton6. cbn [app]. change (58 =? 58) with true. cbv iota. rewrite pton6_colon_gap.
    change (102 :: 102 :: 102 :: 102 :: 58 :: text4 v0 v1 v2 v3) with (hexw 65535 ++ 58 :: text4 v0 v1 v2 v3).
    rewrite pton6_word by (unfold word_ok; lia). rewrite pton6_colon_word by (try (cbn; lia); rewrite Ex; discriminate).
    rewrite pton6_v4 by (auto; cbn; lia). reflexivity.
Qed.
Lemma words_inj : forall ws xs, Forall word_ok ws -> Forall word_ok xs -> word_octets ws = word_octets xs -> ws = xs.
Proof.
  induction ws as [|w ws IH]; intros [|x xs] F G E; [reflexivity|discriminate|discriminate|]. inversion F; inversion G; subst. unfold word_octets in E. cbn [map concat app] in E.
  injection E as E1 E2 E3. f_equal; [|apply IH; auto]. rewrite (Z.div_mod w 256), (Z.div_mod x 256) by lia. congruence.
Qed.
Lemma longest_unique : forall pre n post pre' n' post', first_longest (pre ++ repeat 0 n ++ post) (length pre) n ->
  first_longest (pre' ++ repeat 0 n' ++ post') (length pre') n' -> pre ++ repeat 0 n ++ post = pre' ++ repeat 0 n' ++ post' -> pre = pre' /\ n = n' /\ post = post'.
Proof.
  intros pre n post pre' n' post' A B E.
  assert (n = n' /\ length pre = length pre') as [<- L].
  { destruct (A pre' n' post' E); destruct (B pre n post (eq_sym E)); lia. }
  assert (P : pre = pre').
  { apply (f_equal (firstn (length pre))) in E. rewrite !firstn_app, L, !Nat.sub_diag in E. cbn [firstn] in E. rewrite <- L in E at 1. rewrite !firstn_all, !app_nil_r in E. exact E. }
  subst pre'. apply app_inv_head in E. apply app_inv_head in E. auto.
Qed.
(** The longest run of an address with an embedded IPv4 form. *)
Lemma longest_front : forall k x r pre n post, x <> 0 -> (length r < k)%nat -> first_longest (pre ++ repeat 0 n ++ post) (length pre) n ->
  repeat 0 k ++ x :: r = pre ++ repeat 0 n ++ post -> pre = [] /\ n = k /\ post = x :: r.
Proof.
  intros k x r pre n post NX L A E. apply (longest_unique pre n post [] k (x :: r)); [auto| |symmetry; exact E].
  cbn [app length]. intros p m q Q.
  assert (LE : (length p + m + length q = k + S (length r))%nat) by (apply (f_equal (@length Z)) in Q; rewrite !app_length, !repeat_length in Q; cbn [length] in Q; lia).
  assert (K : nth k (repeat 0 k ++ x :: r) 0 = x) by (rewrite app_nth2; rewrite repeat_length; [rewrite Nat.sub_diag; reflexivity|lia]).
  assert (forall j, (length p <= j < length p + m)%nat -> nth j (repeat 0 k ++ x :: r) 0 = 0).
  { intros j J. rewrite Q. rewrite app_nth2 by lia. rewrite app_nth1 by (rewrite repeat_length; lia). apply nth_repeat. }
  destruct (Nat.le_gt_cases (length p + m) k); [lia|]. destruct (Nat.le_gt_cases (length p) k) as [J|J]; [|lia].
  specialize (H k ltac:(lia)). congruence.
Qed.
Lemma ipv6_unique : forall a s t, bytes_ok a -> ipv6_text a s -> ipv6_text a t -> s = t.
Proof.
  (* every form by its words *)
  assert (N : forall a s, bytes_ok a -> ipv6_text a s -> exists ws, a = word_octets ws /\ Forall word_ok ws /\
     ((s = join ws /\ forall pre post, ws <> pre ++ [0; 0] ++ post) \/
      exists pre n post, ws = pre ++ repeat 0 n ++ post /\ (2 <= n)%nat /\ first_longest ws (length pre) n /\
        ((s = join pre ++ [58; 58] ++ join post /\ ~ (pre = [] /\ (n = 6%nat \/ (n = 5%nat /\ hd 0 post = 65535)))) \/
         exists v0 v1 v2 v3, skipn 12 a = [v0; v1; v2; v3] /\ pre = [] /\
           ((n = 6%nat /\ s = [58; 58] ++ text4 v0 v1 v2 v3) \/ (n = 5%nat /\ hd 0 post = 65535 /\ s = [58; 58; 102; 102; 102; 102; 58] ++ text4 v0 v1 v2 v3))))).
  { intros a s B T. destruct T as [ws s L -> NR G|pre post n s t N2 L FL NM -> G1 G2|x y v4 s NZ -> T4|v4 s -> T4].
    - apply octets_words in B. exists ws. split; [auto|]. split; [auto|]. left. split; [apply groups_join; auto|auto].
    - apply octets_words in B. exists (pre ++ repeat 0 n ++ post). split; [auto|]. split; [auto|]. right. exists pre, n, post. split; [auto|]. split; [auto|]. split; [auto|]. left.
      rewrite !Forall_app in B. destruct B as (B1 & _ & B2). rewrite (groups_opt_join pre s), (groups_opt_join post t) by auto. auto.
    - pose proof B as BB. apply bytes_ok_app in B as [_ B]. destruct (ipv4_text4 _ _ T4 B) as (v0 & v1 & v2 & v3 & E & B0 & B1 & B2 & B3 & ->). injection E as -> -> ->.
      unfold is_byte in *. exists (repeat 0 6 ++ [v0 * 256 + v1; v2 * 256 + v3]).
      assert (W : repeat 0 12 ++ [v0; v1; v2; v3] = word_octets (repeat 0 6 ++ [v0 * 256 + v1; v2 * 256 + v3])).
      { unfold word_octets. cbn [repeat app map concat]. rewrite !Z.div_add_l, !(Z.add_comm (_ * 256)), !Z.mod_add, !(Z.div_small v1), !(Z.div_small v3), !Z.mod_small by lia. rewrite !Z.add_0_r. reflexivity. }
      split; [exact W|]. split; [apply octets_words; rewrite <- W; exact BB|]. right. exists [], 6%nat, [v0 * 256 + v1; v2 * 256 + v3]. split; [reflexivity|]. split; [lia|]. split.
      + intros p m q Q. assert (v0 * 256 + v1 <> 0). { intros Z0. apply NZ. f_equal; lia. }
        assert (LE : (length p + m + length q = 8)%nat) by (apply (f_equal (@length Z)) in Q; rewrite !app_length, !repeat_length in Q; cbn [length] in Q; lia).
        assert (forall j, (length p <= j < length p + m)%nat -> nth j (repeat 0 6 ++ [v0 * 256 + v1; v2 * 256 + v3]) 0 = 0).
        { intros j J. rewrite Q. rewrite app_nth2 by lia. rewrite app_nth1 by (rewrite repeat_length; lia). apply nth_repeat. }
        destruct (Nat.le_gt_cases (length p + m) 6); [cbn [length]; lia|]. destruct (Nat.le_gt_cases (length p) 6) as [J|J]; [|lia].
        specialize (H0 6%nat ltac:(lia)). cbn in H0. congruence.
      + right. exists v0, v1, v2, v3. split; [reflexivity|]. split; [reflexivity|]. left. auto.
    - pose proof B as BB. rewrite app_assoc in B. apply bytes_ok_app in B as [_ B]. destruct (ipv4_text4 _ _ T4 B) as (v0 & v1 & v2 & v3 & E & B0 & B1 & B2 & B3 & ->). subst v4.
      unfold is_byte in *. exists (repeat 0 5 ++ [65535; v0 * 256 + v1; v2 * 256 + v3]).
      assert (W : repeat 0 10 ++ [255; 255] ++ [v0; v1; v2; v3] = word_octets (repeat 0 5 ++ [65535; v0 * 256 + v1; v2 * 256 + v3])).
      { unfold word_octets. cbn [repeat app map concat]. rewrite !Z.div_add_l, !(Z.add_comm (_ * 256)), !Z.mod_add, !(Z.div_small v1), !(Z.div_small v3), !(Z.mod_small v1), !(Z.mod_small v3) by lia. rewrite !Z.add_0_r. reflexivity. }
      split; [exact W|]. split; [apply octets_words; rewrite <- W; exact BB|]. right. exists [], 5%nat, [65535; v0 * 256 + v1; v2 * 256 + v3]. split; [reflexivity|]. split; [lia|]. split.
      + intros p m q Q.
        assert (LE : (length p + m + length q = 8)%nat) by (apply (f_equal (@length Z)) in Q; rewrite !app_length, !repeat_length in Q; cbn [length] in Q; lia).
        assert (forall j, (length p <= j < length p + m)%nat -> nth j (repeat 0 5 ++ [65535; v0 * 256 + v1; v2 * 256 + v3]) 0 = 0).
        { intros j J. rewrite Q. rewrite app_nth2 by lia. rewrite app_nth1 by (rewrite repeat_length; lia). apply nth_repeat. }
        destruct (Nat.le_gt_cases (length p + m) 5); [cbn [length]; lia|]. destruct (Nat.le_gt_cases (length p) 5) as [J|J]; [|lia].
        specialize (H 5%nat ltac:(lia)). cbn in H. discriminate.
      + right. exists v0, v1, v2, v3. split; [reflexivity|]. split; [reflexivity|]. right. auto. }
  intros a s t B S T. destruct (N a s B S) as (ws & E & F & C). destruct (N a t B T) as (ws' & E' & F' & C').
  assert (ws = ws') by (apply words_inj; auto; congruence). subst ws'.
  assert (NN : forall pre n post, ws = pre ++ repeat 0 n ++ post -> (2 <= n)%nat -> (forall pre post, ws <> pre ++ [0; 0] ++ post) -> False).
  { intros pre n post Q L H. destruct n as [|[|n]]; try lia. apply (H pre (repeat 0 n ++ post)). exact Q. }
  destruct C as [[-> C]|(pre & n & post & Q & L & FL & C)]; destruct C' as [[-> C']|(pre' & n' & post' & Q' & L' & FL' & C')]; [reflexivity|exfalso; eauto|exfalso; eauto|].
  destruct (longest_unique pre n post pre' n' post') as (-> & -> & ->); [rewrite <- Q; exact FL|rewrite <- Q'; exact FL'|congruence|]. 
  destruct C as [[-> C]|(v0 & v1 & v2 & v3 & A & P & C)]; destruct C' as [[-> C']|(v0' & v1' & v2' & v3' & A' & P' & C')]; [reflexivity| | |].
  - exfalso. apply C. split; [auto|]. destruct C' as [(? & _)|(? & ? & _)]; auto.
  - exfalso. apply C'. split; [auto|]. destruct C as [(? & _)|(? & ? & _)]; auto.
  - rewrite A in A'. injection A' as <- <- <- <-. destruct C as [(? & ->)|(? & _ & ->)]; destruct C' as [(? & ->)|(? & _ & ->)]; try reflexivity; lia.
Qed.
