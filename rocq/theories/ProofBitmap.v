(** ProofBitmap.v: type bit maps. *)
From Coq Require Import Sorting.Sorted.
From Verif Require Import Base Lib SpecMessage SpecText Libc ModelName ModelFromStr ProofUnpack ProofFormat ProofRdata ProofB64.

(** ** The types of a bit map *)
Lemma in_octet_types : forall base a x, In x (octet_types base a) <-> base <= x < base + 8 /\ Z.testbit a (7 - (x - base)) = true.
Proof.
  intros base a x. unfold octet_types. rewrite in_map_iff. split.
  - intros (j & <- & J). apply filter_In in J as [J T]. replace (base + j - base) with j by lia. split; [cbn [In] in J; lia|exact T].
  - intros [H T]. exists (x - base). split; [lia|]. apply filter_In. split; [|exact T]. assert (K : x - base = 0 \/ x - base = 1 \/ x - base = 2 \/ x - base = 3 \/ x - base = 4 \/ x - base = 5 \/ x - base = 6 \/ x - base = 7) by lia.
    cbn [In]. intuition.
Qed.
Lemma in_map_types : forall l base x, In x (map_types base l) <->
  base <= x < base + 8 * zlen l /\ Z.testbit (nth (Z.to_nat ((x - base) / 8)) l 0) (7 - (x - base) mod 8) = true.
Proof.
  induction l as [|a l IH]; intros base x; cbn [map_types].
  - change (zlen (@nil Z)) with 0. split; [contradiction|]. intros [H _]. lia.
  - rewrite in_app_iff, in_octet_types, IH, zlen_cons. pose proof (zlen_nonneg _ l). destruct (Z.lt_ge_cases (x - base) 8) as [L|L].
    + split.
      * intros [[H1 T]|[H1 _]]; [|lia]. split; [lia|]. replace ((x - base) / 8) with 0 by (symmetry; apply Z.div_small; lia). rewrite Z.mod_small by lia. exact T.
      * intros [H1 T]. left. split; [lia|]. replace ((x - base) / 8) with 0 in T by (symmetry; apply Z.div_small; lia). rewrite Z.mod_small in T by lia. exact T.
    + assert (D : (x - base) / 8 = (x - (base + 8)) / 8 + 1) by (replace (x - base) with (x - (base + 8) + 1 * 8) by lia; apply Z.div_add; lia).
      assert (M : (x - base) mod 8 = (x - (base + 8)) mod 8) by (replace (x - base) with (x - (base + 8) + 1 * 8) by lia; apply Z.mod_add; lia).
      assert (0 <= (x - (base + 8)) / 8) by (apply Z.div_pos; lia).
      rewrite D, M. replace (Z.to_nat ((x - (base + 8)) / 8 + 1)) with (S (Z.to_nat ((x - (base + 8)) / 8))) by lia. cbn [nth].
      split; [intros [[H1 _]|[H1 T]]; [lia|split; [lia|exact T]]|intros [H1 T]; right; split; [lia|exact T]].
Qed.
Lemma types_sorted_app : forall a b, StronglySorted Z.lt a -> StronglySorted Z.lt b -> (forall x y, In x a -> In y b -> x < y) -> StronglySorted Z.lt (a ++ b).
Proof.
  induction 1 as [|c a S IH F]; intros B H; [exact B|]. cbn [app]. constructor.
  - apply IH; auto. intros x y X Y. apply H; auto. right; auto.
  - apply Forall_app. split; [exact F|]. apply Forall_forall. intros y Y. apply H; auto. left; auto.
Qed.
Lemma octet_types_sorted : forall base a, StronglySorted Z.lt (octet_types base a).
Proof.
  intros base a. unfold octet_types.
  assert (G : forall js, StronglySorted Z.lt js -> StronglySorted Z.lt (map (fun j => base + j) (filter (fun j => Z.testbit a (7 - j)) js))).
  { induction 1 as [|j js S IH F]; [constructor|]. cbn [filter]. destruct (Z.testbit a (7 - j)); [|exact IH]. cbn [map]. constructor; [exact IH|].
    apply Forall_forall. intros x X. apply in_map_iff in X as (k & <- & K). apply filter_In in K as [K _]. rewrite Forall_forall in F. specialize (F k K). lia. }
  apply G. repeat (constructor; [|repeat (constructor; [lia|]); constructor]). constructor.
Qed.
Lemma map_types_sorted : forall l base, StronglySorted Z.lt (map_types base l).
Proof.
  induction l as [|a l IH]; intros base; [constructor|]. cbn [map_types]. apply types_sorted_app; [apply octet_types_sorted|apply IH|].
  intros x y X Y. apply in_octet_types in X. apply in_map_types in Y. lia.
Qed.
Lemma in_bitmap : forall ws x, In x (bitmap_types ws) <-> exists w, In w ws /\ In x (window_types w).
Proof. intros ws x. unfold bitmap_types. rewrite in_concat. split; [intros (l & L & X); apply in_map_iff in L as (w & <- & W); eauto|intros (w & W & X); exists (window_types w); split; [apply in_map; auto|auto]]. Qed.
Lemma window_bounds : forall w l x, zlen l <= 32 -> In x (window_types (w, l)) -> x / 256 = w /\ 256 * w <= x < 256 * w + 256.
Proof.
  intros w l x L X. unfold window_types in X. cbn [fst snd] in X. apply in_map_types in X as [R _]. split; [|lia]. symmetry. apply (Z.div_unique x 256 w (x - 256 * w)); lia.
Qed.
Lemma canonical_ge : forall ws k w l, canonical_from k ws -> In (w, l) ws -> k <= w < 256 /\ bytes_ok l /\ 1 <= zlen l <= 32 /\ last l 0 <> 0.
Proof.
  induction ws as [|[v m] ws IH]; intros k w l C I; [contradiction|]. destruct C as (C1 & C2 & C3 & C4 & C5). destruct I as [E|I]; [injection E as <- <-; auto|].
  destruct (IH (v + 1) w l C5 I) as (A & B). split; [lia|exact B].
Qed.
Lemma canonical_mono : forall ws k k', k' <= k -> canonical_from k ws -> canonical_from k' ws.
Proof. intros [|[w l] ws] k k' L C; [exact I|]. destruct C as (C1 & C2). split; [lia|exact C2]. Qed.
Lemma canonical_sorted : forall ws k, canonical_from k ws -> StronglySorted Z.lt (bitmap_types ws).
Proof.
  induction ws as [|[w l] ws IH]; intros k C; [constructor|]. destruct C as (C1 & C2 & C3 & C4 & C5). unfold bitmap_types. cbn [map concat].
  apply types_sorted_app; [apply map_types_sorted|apply (IH (w + 1)); auto|]. intros x y X Y. apply window_bounds in X as [_ X]; [|lia].
  apply in_bitmap in Y as ([w' l'] & W' & Y). destruct (canonical_ge ws (w + 1) w' l' C5 W') as (A & _ & B & _). apply window_bounds in Y as [_ Y]; lia.
Qed.
Lemma canonical_range : forall ws x, canonical ws -> In x (bitmap_types ws) -> 0 <= x < 65536.
Proof.
  intros ws x C X. apply in_bitmap in X as ([w l] & W & X). destruct (canonical_ge ws 0 w l C W) as (A & _ & B & _). apply window_bounds in X as [_ X]; lia.
Qed.

(** ** A canonical bit map is determined by its types. *)
Lemma byte_bits : forall a, is_byte a -> a <> 0 -> exists j, 0 <= j < 8 /\ Z.testbit a (7 - j) = true.
Proof.
  intros a H N. destruct (existsb (fun j => Z.testbit a (7 - j)) [0; 1; 2; 3; 4; 5; 6; 7]) eqn:E.
  - apply existsb_exists in E as (j & J & T). exists j. split; [cbn [In] in J; lia|exact T].
  - exfalso. apply N. assert (K : (existsb (fun j => Z.testbit a (7 - j)) [0; 1; 2; 3; 4; 5; 6; 7]) || (a =? 0) = true).
    { apply (forall_bytes (fun a => existsb (fun j => Z.testbit a (7 - j)) [0; 1; 2; 3; 4; 5; 6; 7] || (a =? 0))); [vm_compute; reflexivity|exact H]. }
    rewrite E in K. lia.
Qed.
Lemma byte_ext : forall a b, is_byte a -> is_byte b -> (forall j, 0 <= j < 8 -> Z.testbit a (7 - j) = Z.testbit b (7 - j)) -> a = b.
Proof.
  intros a b A B H. apply Z.bits_inj'. intros n N. destruct (Z.lt_ge_cases n 8) as [L|L]; [specialize (H (7 - n) ltac:(lia)); replace (7 - (7 - n)) with n in H by lia; exact H|].
  unfold is_byte in *. assert (G : forall c, 0 <= c < 256 -> Z.testbit c n = false).
  { intros c C. rewrite <- (Z.mod_small c (2 ^ 8)) by (change (2 ^ 8) with 256; lia). apply Z.mod_pow2_bits_high. lia. }
  rewrite !G by auto. reflexivity.
Qed.
Lemma last_nth : forall (l : bytes), last l 0 = nth (length l - 1) l 0.
Proof.
  induction l as [|a l IH]; [reflexivity|]. destruct l as [|b l]; [reflexivity|]. change (last (a :: b :: l) 0) with (last (b :: l) 0). rewrite IH. cbn [length].
  replace (S (S (length l)) - 1)%nat with (S (length l)) by lia. replace (S (length l) - 1)%nat with (length l) by lia. reflexivity.
Qed.
Lemma bytes_nth : forall l n, bytes_ok l -> (n < length l)%nat -> is_byte (nth n l 0).
Proof. intros l n B L. unfold bytes_ok in B. rewrite Forall_forall in B. apply B, nth_In, L. Qed.
Lemma window_has : forall w l, bytes_ok l -> 1 <= zlen l <= 32 -> last l 0 <> 0 -> exists x, In x (window_types (w, l)) /\ 256 * w + 8 * (zlen l - 1) <= x.
Proof.
  intros w l B L N. rewrite last_nth in N.
  destruct (byte_bits (nth (length l - 1) l 0)) as (j & J & T); [apply bytes_nth; auto; unfold zlen in L; lia|auto|].
  exists (256 * w + 8 * (zlen l - 1) + j). split; [|lia]. unfold window_types. cbn [fst snd]. apply in_map_types. split; [lia|].
  replace (256 * w + 8 * (zlen l - 1) + j - 256 * w) with (j + (zlen l - 1) * 8) by lia. rewrite Z.div_add, Z.mod_add, (Z.div_small j), (Z.mod_small j) by lia.
  replace (Z.to_nat (0 + (zlen l - 1))) with (length l - 1)%nat by (unfold zlen in *; lia). exact T.
Qed.
Lemma canonical_unique_from : forall ws ws' k, canonical_from k ws -> canonical_from k ws' ->
  (forall x, In x (bitmap_types ws) <-> In x (bitmap_types ws')) -> ws = ws'.
Proof.
  assert (HD : forall w l r w' l' r' k, canonical_from k ((w, l) :: r) -> canonical_from k ((w', l') :: r') ->
     (forall x, In x (bitmap_types ((w, l) :: r)) -> In x (bitmap_types ((w', l') :: r'))) -> w' <= w /\ (w = w' -> forall x, In x (window_types (w, l)) -> In x (window_types (w', l')))).
  { intros w l r w' l' r' k C C' H. destruct C as (C1 & C2 & C3 & C4 & C5). destruct C' as (C1' & C2' & C3' & C4' & C5'). split.
    - destruct (window_has w l C2 C3 C4) as (x & X & _). pose proof (window_bounds w l x ltac:(lia) X) as [D _].
      assert (In x (bitmap_types ((w, l) :: r))) as I by (apply in_bitmap; exists (w, l); split; [left; auto|auto]).
      apply H in I. apply in_bitmap in I as ([v m] & W & Y). destruct W as [E|W].
      + injection E as <- <-. apply window_bounds in Y as [D' _]; lia.
      + destruct (canonical_ge r' _ v m C5' W) as (A & _ & B & _). apply window_bounds in Y as [D' _]; lia.
    - intros <- x X. pose proof (window_bounds w l x ltac:(lia) X) as [D _].
      assert (In x (bitmap_types ((w, l) :: r))) as I by (apply in_bitmap; exists (w, l); split; [left; auto|auto]).
      apply H in I. apply in_bitmap in I as ([v m] & W & Y). destruct W as [E|W]; [injection E as <- <-; exact Y|].
      exfalso. destruct (canonical_ge r' _ v m C5' W) as (A & _ & B & _). apply window_bounds in Y as [D' _]; lia. }
  assert (NE : forall w l r k, canonical_from k ((w, l) :: r) -> exists x, In x (bitmap_types ((w, l) :: r))).
  { intros w l r k C. destruct C as (C1 & C2 & C3 & C4 & C5). destruct (window_has w l C2 C3 C4) as (x & X & _). exists x. apply in_bitmap. exists (w, l). split; [left; auto|auto]. }
  induction ws as [|[w l] r IH]; intros [|[w' l'] r'] k C C' H.
  - reflexivity.
  - destruct (NE _ _ _ _ C') as (x & X). apply H in X. contradiction.
  - destruct (NE _ _ _ _ C) as (x & X). apply H in X. contradiction.
  - destruct (HD _ _ _ _ _ _ _ C C' (fun x => proj1 (H x))) as [L1 S1]. destruct (HD _ _ _ _ _ _ _ C' C (fun x => proj2 (H x))) as [L2 S2].
    assert (w = w') by lia. subst w'. specialize (S1 eq_refl). specialize (S2 eq_refl).
    destruct C as (C1 & C2 & C3 & C4 & C5). destruct C' as (C1' & C2' & C3' & C4' & C5').
    assert (LL : forall a b, bytes_ok a -> 1 <= zlen a <= 32 -> last a 0 <> 0 -> zlen b <= 32 -> (forall x, In x (window_types (w, a)) -> In x (window_types (w, b))) -> zlen a <= zlen b).
    { intros a b Ba La Na Lb S. destruct (window_has w a Ba La Na) as (x & X & G). apply S in X. unfold window_types in X. cbn [fst snd] in X. apply in_map_types in X as [R _]. lia. }
    assert (EL : zlen l = zlen l') by (apply Z.le_antisymm; eapply LL; eauto; lia).
    assert (l = l').
    { apply (nth_ext l l' 0 0); [unfold zlen in EL; lia|]. intros n N.
      apply byte_ext; [apply bytes_nth; auto; lia|apply bytes_nth; auto; unfold zlen in EL; lia|]. intros j J.
      assert (Q : forall m, zlen m = zlen l -> (In (256 * w + 8 * Z.of_nat n + j) (window_types (w, m)) <-> Z.testbit (nth n m 0) (7 - j) = true)).
      { intros m Lm. unfold window_types. cbn [fst snd]. rewrite in_map_types.
        replace (256 * w + 8 * Z.of_nat n + j - 256 * w) with (j + Z.of_nat n * 8) by lia. rewrite Z.div_add, Z.mod_add, (Z.div_small j), (Z.mod_small j) by lia.
        replace (Z.to_nat (0 + Z.of_nat n)) with n by lia. split; [intros [_ T]; exact T|intros T; split; [unfold zlen in *; lia|exact T]]. }
      pose proof (Q l eq_refl) as Q1. pose proof (Q l' (eq_sym EL)) as Q2. 
      destruct (Z.testbit (nth n l 0) (7 - j)) eqn:T1, (Z.testbit (nth n l' 0) (7 - j)) eqn:T2; auto.
      - exfalso. assert (false = true) as K by (apply Q2, S1, Q1; reflexivity). discriminate.
      - exfalso. assert (false = true) as K by (apply Q1, S2, Q2; reflexivity). discriminate. }
    subst l'. f_equal. apply (IH r' (w + 1)); auto.
    assert (R : forall a k, canonical_from (w + 1) a -> (forall x, In x (bitmap_types a) <-> In x (bitmap_types ((w, l) :: a)) /\ x / 256 <> w) /\ k = k :> Z).
    { intros a k0 Ca. split; [|auto]. intros x. unfold bitmap_types at 2. cbn [map concat]. rewrite in_app_iff. split.
      - intros X. split; [right; auto|]. apply in_bitmap in X as ([v m] & W & Y). destruct (canonical_ge a _ v m Ca W) as (A & _ & B & _). apply window_bounds in Y as [D' _]; lia.
      - intros [[X|X] D]; [|exact X]. apply window_bounds in X as [D' _]; [congruence|lia]. }
    intros x. rewrite (proj1 (R r 0 C5) x), (proj1 (R r' 0 C5') x), H. tauto.
Qed.
Lemma canonical_unique : forall ws ws', canonical ws -> canonical ws' -> (forall x, In x (bitmap_types ws) <-> In x (bitmap_types ws')) -> ws = ws'.
Proof. intros ws ws'. apply canonical_unique_from. Qed.

(** ** From a list of types to the bit map *)
Lemma ins_in : forall v l x, In x (ins_u16 v l) <-> x = v \/ In x l.
Proof.
  induction l as [|w l IH]; intros x; [cbn; intuition|]. cbn [ins_u16]. destruct (v <=? w); [cbn [In]; intuition|]. cbn [In]. rewrite IH. intuition.
Qed.
Lemma sort_in : forall l x, In x (sort_u16 l) <-> In x l.
Proof. induction l as [|v l IH]; intros x; [reflexivity|]. cbn [sort_u16 fold_right]. fold (sort_u16 l). rewrite ins_in, IH. cbn [In]. intuition. Qed.
Lemma ins_sorted : forall v l, StronglySorted Z.le l -> StronglySorted Z.le (ins_u16 v l).
Proof.
  induction 1 as [|w l S IH F]; [repeat constructor|]. cbn [ins_u16]. destruct (Z.leb_spec v w).
  - constructor; [constructor; auto|]. constructor; [auto|]. eapply Forall_impl; [|exact F]. cbn. intros; lia.
  - constructor; [exact IH|]. apply Forall_forall. intros x X. apply ins_in in X as [-> |X]; [lia|]. rewrite Forall_forall in F. auto.
Qed.
Lemma sort_sorted : forall l, StronglySorted Z.le (sort_u16 l).
Proof. induction l as [|v l IH]; [constructor|]. cbn [sort_u16 fold_right]. apply ins_sorted. exact IH. Qed.

(** The state of the loop: [bm] holds the types of window [w] seen so far, the last of which is [lst]. *)
Definition bm_inv (lst w len : Z) (bm : bytes) : Prop :=
  zlen bm = 32 /\ bytes_ok bm /\ (forall i, (Z.to_nat len <= i)%nat -> nth i bm 0 = 0) /\
  ((lst = 65536 /\ w = 0 /\ len = 0) \/
   (0 <= lst < 65536 /\ w = lst / 256 /\ len = 1 + lst mod 256 / 8 /\ Z.testbit (nth (Z.to_nat (len - 1)) bm 0) (7 - lst mod 8) = true)).

Lemma bit_mask : forall b j, 0 <= b < 8 -> 0 <= j < 8 -> Z.testbit (Z.shiftr 128 b) (7 - j) = (b =? j).
Proof.
  intros b j B J. 
  assert (K : forallb (fun b => forallb (fun j => Bool.eqb (Z.testbit (Z.shiftr 128 b) (7 - j)) (b =? j)) [0;1;2;3;4;5;6;7]) [0;1;2;3;4;5;6;7] = true) by (vm_compute; reflexivity).
  rewrite forallb_forall in K. specialize (K b). rewrite forallb_forall in K. apply Bool.eqb_prop, K; cbn [In]; lia.
Qed.
Lemma lor_mask_byte : forall a b, is_byte a -> 0 <= b < 8 -> is_byte (Z.lor a (Z.shiftr 128 b)).
Proof.
  intros a b A B. unfold is_byte in *.
  assert (M : 0 <= Z.shiftr 128 b < 256). { rewrite Z.shiftr_div_pow2 by lia. assert (0 < 2 ^ b) by (apply Z.pow_pos_nonneg; lia). split; [apply Z.div_pos; lia|]. apply Z.div_lt_upper_bound; nia. }
  split; [apply Z.lor_nonneg; lia|].
  change 256 with (2 ^ 8). apply Z.log2_lt_pow2; [destruct (Z.eq_dec (Z.lor a (Z.shiftr 128 b)) 0) as [E|E]; [apply Z.lor_eq_0_iff in E as [_ E]|]|].
  - exfalso. rewrite Z.shiftr_div_pow2 in E by lia. assert (2 ^ b <= 2 ^ 7) by (apply Z.pow_le_mono_r; lia). assert (0 < 2 ^ b) by (apply Z.pow_pos_nonneg; lia).
    assert (1 <= 128 / 2 ^ b) by (apply Z.div_le_lower_bound; lia). lia.
  - assert (0 <= Z.lor a (Z.shiftr 128 b)) by (apply Z.lor_nonneg; lia). lia.
  - rewrite Z.log2_lor by lia. apply Z.max_lub_lt; [destruct (Z.eq_dec a 0) as [-> |]; [cbn; lia|apply Z.log2_lt_pow2; lia]|].
    destruct (Z.eq_dec (Z.shiftr 128 b) 0) as [-> |]; [cbn; lia|apply Z.log2_lt_pow2; lia].
Qed.
Lemma rd_nth : forall bm i, zlen bm = 32 -> 0 <= i < 32 -> exists a b, bm = a ++ nth (Z.to_nat i) bm 0 :: b /\ zlen a = i.
Proof.
  intros bm i L H. destruct (nth_split bm 0 (n := Z.to_nat i)) as (a & b & E & La); [unfold zlen in L; lia|]. exists a, b. split; [exact E|unfold zlen; lia].
Qed.
Lemma rd_mid : forall a v (b : bytes) i, zlen a = i -> rd (a ++ v :: b) i = Ok v.
Proof.
  intros a v b i L. unfold rd. pose proof (zlen_nonneg _ a). replace (i <? 0) with false by lia. rewrite nth_error_app2 by (unfold zlen in L; lia).
  replace (Z.to_nat i - length a)%nat with 0%nat by (unfold zlen in L; lia). reflexivity.
Qed.
Lemma firstn_In' : forall n (l : bytes) x, In x (firstn n l) -> In x l.
Proof. intros n l x H. rewrite <- (firstn_skipn n l). apply in_or_app. auto. Qed.
(** Setting the bit of type [t]. *)
Lemma set_type : forall bm t, zlen bm = 32 -> bytes_ok bm -> 0 <= t ->
  let byte := t mod 256 / 8 in let bit := t mod 256 mod 8 in
  exists bm', rd bm byte = Ok (nth (Z.to_nat byte) bm 0) /\ set_at bm byte (Z.lor (nth (Z.to_nat byte) bm 0) (Z.shiftr 128 bit)) = Ok bm' /\
    zlen bm' = 32 /\ bytes_ok bm' /\ (forall i, i <> Z.to_nat byte -> nth i bm' 0 = nth i bm 0) /\
    (forall j, 0 <= j < 8 -> Z.testbit (nth (Z.to_nat byte) bm' 0) (7 - j) = Z.testbit (nth (Z.to_nat byte) bm 0) (7 - j) || (j =? bit)).
Proof.
  intros bm t L B T byte bit.
  assert (R1 : 0 <= byte < 32). { subst byte. pose proof (Z.mod_pos_bound t 256 ltac:(lia)). split; [apply Z.div_pos; lia|apply Z.div_lt_upper_bound; lia]. }
  assert (R2 : 0 <= bit < 8) by (subst bit; apply Z.mod_pos_bound; lia). clearbody byte bit.
  destruct (rd_nth bm byte L R1) as (a & b & E & La). set (v := nth (Z.to_nat byte) bm 0) in *.
  assert (Bv : is_byte v) by (apply bytes_nth; auto; unfold zlen in L; lia).
  exists (a ++ Z.lor v (Z.shiftr 128 bit) :: b).
  assert (Na : Z.to_nat byte = length a) by (unfold zlen in La; lia).
  assert (NB : forall i, nth i (a ++ Z.lor v (Z.shiftr 128 bit) :: b) 0 = if Nat.eqb i (length a) then Z.lor v (Z.shiftr 128 bit) else nth i bm 0).
  { intros i. rewrite E. destruct (Nat.eqb_spec i (length a)) as [-> |N]; [rewrite app_nth2, Nat.sub_diag by lia; reflexivity|].
    destruct (Nat.lt_ge_cases i (length a)); [rewrite !app_nth1 by lia; reflexivity|]. rewrite !app_nth2 by lia. destruct (i - length a)%nat eqn:Q; [lia|reflexivity]. }
  split; [rewrite E; apply rd_mid; auto|]. split; [rewrite E at 1; apply set_at_app; auto|].
  split; [rewrite E in L; rewrite zlen_app, zlen_cons in *; lia|].
  split. { rewrite E in B. apply bytes_ok_app in B as [B1 B2]. apply bytes_ok_cons in B2 as [_ B2]. apply bytes_ok_app. split; [auto|]. apply bytes_ok_cons. split; [apply lor_mask_byte; auto|auto]. }
  split. { intros i N. rewrite NB. destruct (Nat.eqb_spec i (length a)); [lia|reflexivity]. }
  intros j J. rewrite NB, Na, Nat.eqb_refl. rewrite Z.lor_spec, bit_mask by auto. rewrite (Z.eqb_sym bit j). reflexivity.
Qed.

Lemma nth_firstn : forall n (l : bytes) i, nth i (firstn n l) 0 = if (i <? n)%nat then nth i l 0 else 0.
Proof.
  induction n as [|n IH]; intros l i; [destruct i; reflexivity|]. destruct l as [|a l]; [cbn [firstn]; destruct i; match goal with |- context [if ?b then _ else _] => destruct b end; reflexivity|].
  cbn [firstn]. destruct i as [|i]; [reflexivity|]. cbn [nth]. rewrite IH. reflexivity.
Qed.
(** The types of the whole buffer and of its used part are the same. *)
Lemma used_types : forall lst w len bm x, bm_inv lst w len bm -> In x (map_types (256 * w) (firstn (Z.to_nat len) bm)) <-> In x (map_types (256 * w) bm).
Proof.
  intros lst w len bm x (L & B & Z0 & C).
  assert (0 <= len <= 32). { destruct C as [(_ & _ & ->)|(R & _ & -> & _)]; [lia|]. pose proof (Z.mod_pos_bound lst 256 ltac:(lia)). assert (0 <= lst mod 256 / 8 < 32) by (split; [apply Z.div_pos; lia|apply Z.div_lt_upper_bound; lia]). lia. }
  rewrite !in_map_types. assert (LF : zlen (firstn (Z.to_nat len) bm) = len) by (unfold zlen in *; rewrite firstn_length; lia). rewrite LF, L, nth_firstn. split.
  - intros [R T]. split; [lia|]. destruct (Nat.ltb_spec (Z.to_nat ((x - 256 * w) / 8)) (Z.to_nat len)); [exact T|rewrite Z.bits_0 in T; discriminate].
  - intros [R T]. assert (0 <= (x - 256 * w) / 8) by (apply Z.div_pos; lia).
    destruct (Nat.ltb_spec (Z.to_nat ((x - 256 * w) / 8)) (Z.to_nat len)) as [Q|Q].
    + split; [|exact T]. pose proof (Z.div_mod (x - 256 * w) 8 ltac:(lia)). pose proof (Z.mod_pos_bound (x - 256 * w) 8 ltac:(lia)). lia.
    + rewrite Z0 in T by lia. rewrite Z.bits_0 in T. discriminate.
Qed.
Lemma flush_spec : forall lst w len bm, bm_inv lst w len bm -> 0 <= w < 256 ->
  exists ws, flush_window w len bm = Ok (concat (map window ws)) /\ (forall r, canonical_from (w + 1) r -> canonical_from w (ws ++ r)) /\
    (forall x, In x (bitmap_types ws) <-> In x (map_types (256 * w) bm)).
Proof.
  intros lst w len bm I W. pose proof I as (L & B & Z0 & C). destruct C as [(_ & -> & ->)|(R & -> & El & T)].
  - exists []. split; [reflexivity|]. split; [intros r Cr; eapply canonical_mono; [|exact Cr]; lia|]. intros x. rewrite <- (used_types lst 0 0 bm x I). reflexivity.
  - pose proof (Z.mod_pos_bound lst 256 ltac:(lia)). assert (H0 : 0 <= lst mod 256 / 8 < 32) by (split; [apply Z.div_pos; lia|apply Z.div_lt_upper_bound; lia]).
    exists [(lst / 256, firstn (Z.to_nat len) bm)].
    assert (LF : zlen (firstn (Z.to_nat len) bm) = len) by (unfold zlen in *; rewrite firstn_length; lia).
    split.
    + unfold flush_window. replace (len >? 0) with true by lia. assert (TK : take_rd bm len = Ok (firstn (Z.to_nat len) bm)).
      { rewrite <- (firstn_skipn (Z.to_nat len) bm) at 1. apply take_rd_app. exact LF. }
      rewrite TK. cbn [bind map concat]. unfold window. cbn [fst snd]. rewrite LF, app_nil_r. reflexivity.
    + split.
      * intros r Cr. cbn [app canonical_from]. split; [lia|]. split; [apply Forall_forall; intros y Y; unfold bytes_ok in B; rewrite Forall_forall in B; apply B; eapply firstn_In'; eauto|].
        split; [lia|]. split; [|exact Cr]. rewrite last_nth, nth_firstn. replace (length (firstn (Z.to_nat len) bm) - 1)%nat with (Z.to_nat (len - 1)) by (unfold zlen in LF; lia).
        replace (Z.to_nat (len - 1) <? Z.to_nat len)%nat with true by (symmetry; apply Nat.ltb_lt; lia). intros K. rewrite K, Z.bits_0 in T. discriminate.
      * intros x. unfold bitmap_types. cbn [map concat]. rewrite app_nil_r. unfold window_types. cbn [fst snd]. apply used_types with lst. exact I.
Qed.

Lemma mod_256_8 : forall t, t mod 256 mod 8 = t mod 8.
Proof. intros t. symmetry. apply Znumtheory.Zmod_div_mod; try lia. exists 32. reflexivity. Qed.
Lemma windows_parse_spec : forall ts lst w len bm, bm_inv lst w len bm -> StronglySorted Z.le ts -> Forall (fun t => 0 <= t < 65536 /\ (lst = 65536 \/ lst <= t)) ts ->
  exists ws, windows_parse ts lst w len bm = Ok (concat (map window ws)) /\ canonical_from w ws /\
    (forall x, In x (bitmap_types ws) <-> In x (map_types (256 * w) bm) \/ In x ts).
Proof.
  induction ts as [|t ts IH]; intros lst w len bm I S F.
  - assert (W : 0 <= w < 256). { destruct I as (_ & _ & _ & [(_ & -> & _)|(R & -> & _)]); [lia|]. split; [apply Z.div_pos; lia|apply Z.div_lt_upper_bound; lia]. }
    destruct (flush_spec lst w len bm I W) as (ws & E & C & X). exists ws. split; [exact E|]. split; [rewrite <- (app_nil_r ws); apply C; exact Logic.I|]. intros x. rewrite X. cbn [In]. tauto.
  - inversion S as [|? ? S' F1]; subst. inversion F as [|? ? [Ht Hl] F']; subst. cbn [windows_parse].
    assert (NX : Forall (fun u => 0 <= u < 65536 /\ (t = 65536 \/ t <= u)) ts).
    { rewrite Forall_forall in *. intros u U. split; [apply F'; auto|right; auto]. }
    destruct (Z.eqb_spec t lst) as [-> |N].
    + destruct (IH lst w len bm I S' F') as (ws & E & C & X). exists ws. split; [exact E|]. split; [exact C|]. intros x. rewrite X. cbn [In]. split; [tauto|]. intros [H|[<-|H]]; auto. left.
      destruct I as (L & B & Z0 & [(-> & _)|(R & -> & -> & T)]); [lia|]. apply in_map_types. rewrite L.
      pose proof (Z.div_mod lst 256 ltac:(lia)) as DM. pose proof (Z.mod_pos_bound lst 256 ltac:(lia)). replace (lst - 256 * (lst / 256)) with (lst mod 256) by lia. split; [lia|].
      replace (Z.to_nat (1 + lst mod 256 / 8 - 1)) with (Z.to_nat (lst mod 256 / 8)) in T by lia.
      rewrite mod_256_8. exact T.
    + cbv zeta.
      pose proof (mod_256_8 t) as MM.
      pose proof (Z.div_mod t 256 ltac:(lia)) as DM. pose proof (Z.mod_pos_bound t 256 ltac:(lia)) as MB.
      assert (BY : 0 <= t mod 256 / 8 < 32) by (split; [apply Z.div_pos; lia|apply Z.div_lt_upper_bound; lia]).
      assert (CW : 0 <= t / 256 < 256) by (split; [apply Z.div_pos; lia|apply Z.div_lt_upper_bound; lia]).
      (* one more type in a buffer of the window of t *)
      assert (STEP : forall bm0, zlen bm0 = 32 -> bytes_ok bm0 -> (forall i, (Z.to_nat (1 + t mod 256 / 8) <= i)%nat -> nth i bm0 0 = 0) ->
        exists bm', rd bm0 (t mod 256 / 8) = Ok (nth (Z.to_nat (t mod 256 / 8)) bm0 0) /\
          set_at bm0 (t mod 256 / 8) (Z.lor (nth (Z.to_nat (t mod 256 / 8)) bm0 0) (Z.shiftr 128 (t mod 256 mod 8))) = Ok bm' /\
          bm_inv t (t / 256) (1 + t mod 256 / 8) bm' /\ (forall x, In x (map_types (256 * (t / 256)) bm') <-> In x (map_types (256 * (t / 256)) bm0) \/ x = t)).
      { intros bm0 L0 B0 Z0. destruct (set_type bm0 t L0 B0 ltac:(lia)) as (bm' & E1 & E2 & L' & B' & O' & T'). exists bm'. split; [exact E1|]. split; [exact E2|].
        split.
        - split; [exact L'|]. split; [exact B'|]. split; [intros i Hi; rewrite O' by lia; apply Z0; exact Hi|]. right. split; [exact Ht|]. split; [reflexivity|]. split; [reflexivity|].
          replace (Z.to_nat (1 + t mod 256 / 8 - 1)) with (Z.to_nat (t mod 256 / 8)) by lia. rewrite T' by (apply Z.mod_pos_bound; lia). rewrite MM, Z.eqb_refl. apply orb_true_r.
        - intros x. rewrite !in_map_types, L', L0. set (d := x - 256 * (t / 256)). 
          assert (DX : 256 * (t / 256) <= x < 256 * (t / 256) + 8 * 32 -> 0 <= d / 8 /\ 0 <= d mod 8 < 8 /\ d = 8 * (d / 8) + d mod 8).
          { intros R. subst d. pose proof (Z.div_mod (x - 256 * (t / 256)) 8 ltac:(lia)). pose proof (Z.mod_pos_bound (x - 256 * (t / 256)) 8 ltac:(lia)). split; [apply Z.div_pos; lia|]. lia. }
          assert (DT : t mod 256 = 8 * (t mod 256 / 8) + t mod 256 mod 8) by (apply Z.div_mod; lia).
          destruct (Z.eq_dec (d / 8) (t mod 256 / 8)) as [Q|Q].
          + split.
            * intros [R T]. destruct (DX R) as (D1 & D2 & D3). rewrite Q, T' in T by lia. apply orb_prop in T as [T|T]; [left; split; [exact R|rewrite Q; exact T]|]. right. apply Z.eqb_eq in T. lia.
            * intros [[R T]| ->].
              -- destruct (DX R) as (D1 & D2 & D3). split; [exact R|]. rewrite Q, T' by lia. rewrite Q in T. rewrite T. reflexivity.
              -- assert (R : 256 * (t / 256) <= t < 256 * (t / 256) + 8 * 32) by lia. destruct (DX R) as (D1 & D2 & D3). split; [exact R|]. rewrite Q, T' by lia. replace (d mod 8) with (t mod 256 mod 8) by lia. rewrite Z.eqb_refl. apply orb_true_r.
          + split.
            * intros [R T]. destruct (DX R) as (D1 & D2 & D3). rewrite O' in T by lia. left. auto.
            * intros [[R T]| ->]; [|exfalso; apply Q; subst d; f_equal; lia]. destruct (DX R) as (D1 & D2 & D3). split; [exact R|]. rewrite O' by lia. exact T. }
      destruct (Z.eqb_spec (t / 256) w) as [EW|NW]; cbn [negb bind].
      * subst w. pose proof I as (L & B & Z0 & C).
        destruct (STEP bm L B) as (bm' & E1 & E2 & I' & X').
        { intros i Hi. apply Z0. destruct C as [(_ & _ & ->)|(R & EW & -> & _)]; [lia|].
          assert (lst <= t) by lia. pose proof (Z.div_mod lst 256 ltac:(lia)). assert (lst mod 256 / 8 <= t mod 256 / 8) by (apply Z.div_le_mono; lia). lia. }
        rewrite E1. cbn [bind]. rewrite E2. cbn [bind]. destruct (IH t (t / 256) (1 + t mod 256 / 8) bm' I' S' NX) as (ws & E & Cn & X). rewrite E. cbn [bind app]. exists ws.
        split; [reflexivity|]. split; [exact Cn|]. intros x. rewrite X, X'. cbn [In]. intuition.
      * assert (WR : 0 <= w < t / 256).
        { destruct I as (_ & _ & _ & [(_ & -> & _)|(R & -> & _)]); [lia|]. split; [apply Z.div_pos; lia|]. assert (lst / 256 <= t / 256) by (apply Z.div_le_mono; lia). lia. }
        destruct (flush_spec lst w len bm I ltac:(lia)) as (ws0 & E0 & C0 & X0). rewrite E0. cbn [bind].
        destruct (STEP (repeat 0 32)) as (bm' & E1 & E2 & I' & X'); [reflexivity|apply Forall_forall; intros y Y; apply repeat_spec in Y; subst; unfold is_byte; lia|intros; apply nth_repeat|].
        rewrite E1. cbn [bind]. rewrite E2. cbn [bind]. destruct (IH t (t / 256) (1 + t mod 256 / 8) bm' I' S' NX) as (ws & E & Cn & X). rewrite E. cbn [bind]. exists (ws0 ++ ws).
        split; [rewrite map_app, concat_app; reflexivity|]. split; [apply C0; eapply canonical_mono; [|exact Cn]; lia|].
        intros x. unfold bitmap_types in *. rewrite map_app, concat_app, in_app_iff, X0, X, X'. cbn [In].
        assert (ZT : ~ In x (map_types (256 * (t / 256)) (repeat 0 32))). { rewrite in_map_types, nth_repeat, Z.bits_0. intros [_ K]. discriminate. }
        intuition.
Qed.

Lemma types_to_bitmap_spec : forall ts, Forall (fun t => 0 <= t < 65536) ts -> exists ws, types_to_bitmap ts = Ok (concat (map window ws)) /\ canonical ws /\
  (forall x, In x (bitmap_types ws) <-> In x ts).
Proof.
  intros ts F. unfold types_to_bitmap. destruct (windows_parse_spec (sort_u16 ts) 65536 0 0 (repeat 0 32)) as (ws & E & C & X).
  - split; [reflexivity|]. split; [apply Forall_forall; intros y Y; apply repeat_spec in Y; subst; unfold is_byte; lia|]. split; [intros; apply nth_repeat|]. left. auto.
  - apply sort_sorted.
  - apply Forall_forall. intros t T. apply (proj1 (sort_in ts t)) in T. rewrite Forall_forall in F. auto.
  - exists ws. split; [exact E|]. split; [exact C|]. intros x. rewrite X, sort_in. 
    assert (ZT : ~ In x (map_types (256 * 0) (repeat 0 32))). { rewrite in_map_types, nth_repeat, Z.bits_0. intros [_ K]. discriminate. }
    intuition.
Qed.
Lemma bitmap_roundtrip : forall ws, canonical ws -> types_to_bitmap (bitmap_types ws) = Ok (concat (map window ws)).
Proof.
  intros ws C. destruct (types_to_bitmap_spec (bitmap_types ws)) as (ws' & E & C' & X).
  - apply Forall_forall. intros x H. eapply canonical_range; eauto.
  - rewrite E. rewrite (canonical_unique ws' ws); auto.
Qed.
