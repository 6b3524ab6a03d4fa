(** ProofRead2.v: base64 and base32 text, exactly. *)
From Verif Require Import Base Lib SpecName SpecStrName SpecMessage SpecFormat SpecText SpecRead Libc ModelName ModelFormat ModelFromStr.
From Verif Require Import ProofUnpack ProofFormat ProofB64 ProofB32.

(** ** Octets of bits *)
Definition b2z (b : bool) : Z := if b then 1 else 0.
Definition val8 (a b c d e f g h : bool) : Z :=
  b2z a * 128 + b2z b * 64 + b2z c * 32 + b2z d * 16 + b2z e * 8 + b2z f * 4 + b2z g * 2 + b2z h.
Fixpoint chop (l : list bool) : bytes :=
  match l with a :: b :: c :: d :: e :: f :: g :: h :: r => val8 a b c d e f g h :: chop r | _ => [] end.

Lemma bits_val8 : forall a b c d e f g h, bits 8 (val8 a b c d e f g h) = [a; b; c; d; e; f; g; h].
Proof. intros [] [] [] [] [] [] [] []; reflexivity. Qed.
Lemma val8_byte : forall a b c d e f g h, is_byte (val8 a b c d e f g h).
Proof. intros. unfold is_byte, val8, b2z. destruct a, b, c, d, e, f, g, h; lia. Qed.
Definition val8l (l : list bool) : Z := match l with [a; b; c; d; e; f; g; h] => val8 a b c d e f g h | _ => -1 end.
Lemma bits8_shape : forall v, is_byte v -> exists a b c d e f g h, bits 8 v = [a; b; c; d; e; f; g; h] /\ v = val8 a b c d e f g h.
Proof.
  intros v H. assert (E : (val8l (bits 8 v) =? v) = true).
  { revert v H. apply (forall_bytes (fun v => val8l (bits 8 v) =? v)). vm_compute. reflexivity. }
  apply Z.eqb_eq in E. cbn [bits app] in *. do 8 eexists. split; [reflexivity|]. rewrite <- E at 1. reflexivity.
Qed.
Lemma bits_length : forall n v, length (bits n v) = n.
Proof. induction n; intros v; cbn [bits]; [reflexivity|]. rewrite app_length, IHn. cbn. lia. Qed.

Lemma chop_short : forall l, (length l < 8)%nat -> chop l = [].
Proof. intros l H. do 8 (destruct l as [|? l]; [reflexivity|]). cbn [length] in H. lia. Qed.
Lemma chop_byte : forall v r, is_byte v -> chop (bits 8 v ++ r) = v :: chop r.
Proof. intros v r H. destruct (bits8_shape v H) as (a & b & c & d & e & f & g & h & E & V). rewrite E. cbn [app chop]. rewrite <- V. reflexivity. Qed.
Lemma chop_bytes : forall l t, bytes_ok l -> (length t < 8)%nat -> chop (bit_string 8 l ++ t) = l.
Proof.
  induction l as [|v l IH]; intros t F L; [apply chop_short; auto|]. apply bytes_ok_cons in F as [V F].
  unfold bit_string. cbn [map concat]. rewrite <- app_assoc, chop_byte by auto. f_equal. apply IH; auto.
Qed.
Lemma chop_ok : forall n l, (length l <= n)%nat -> bytes_ok (chop l) /\ exists t, (length t < 8)%nat /\ l = bit_string 8 (chop l) ++ t.
Proof.
  induction n as [|n IH]; intros l L.
  - destruct l; [|cbn in L; lia]. split; [constructor|]. exists []. split; [cbn; lia|reflexivity].
  - destruct (le_lt_dec 8 (length l)) as [G|G].
    2:{ rewrite chop_short by auto. split; [constructor|]. exists l. auto. }
    do 8 (destruct l as [|? l]; [cbn in G; lia|]). cbn [chop]. destruct (IH l) as (F & t & T & E); [cbn [length] in L; lia|].
    split; [constructor; auto; apply val8_byte|]. exists t. split; auto. unfold bit_string. cbn [map concat]. rewrite bits_val8. cbn [app]. do 8 f_equal. exact E.
Qed.
Lemma octets_chop : forall b l, octets_of b l <-> l = chop b.
Proof.
  intros b l. split.
  - intros (F & t & T & ->). symmetry. apply chop_bytes; auto.
  - intros ->. destruct (chop_ok (length b) b (le_n _)) as (F & t & T & E). split; auto. exists t. auto.
Qed.

(** ** Base 64 *)
Definition b64_isval (c : Z) : bool := existsb (fun v => c =? b64_char v) (map Z.of_nat (seq 0 64)).
Lemma b64_isval_iff : forall c, b64_isval c = true <-> exists v, b64_value_of c v.
Proof.
  intros c. unfold b64_isval. rewrite existsb_exists. split.
  - intros (v & I & E). apply in_map_iff in I as (k & <- & I). apply in_seq in I. exists (Z.of_nat k). split; lia.
  - intros (v & R & E). exists v. split; [|lia]. apply in_map_iff. exists (Z.to_nat v). split; [lia|]. apply in_seq. lia.
Qed.
Lemma dec_other : forall c, is_byte c -> c <> 123 -> (forall v, ~ b64_value_of c v) -> exists f, base64_decode_value c = Ok f /\ f < 0.
Proof.
  intros c H N V. assert (G : (b64_isval c || (c =? 123) || match base64_decode_value c with Ok f => f <? 0 | _ => false end) = true).
  { revert c H N V. assert (Q : forall c, is_byte c -> (b64_isval c || (c =? 123) || match base64_decode_value c with Ok f => f <? 0 | _ => false end) = true).
    { apply (forall_bytes (fun c => b64_isval c || (c =? 123) || match base64_decode_value c with Ok f => f <? 0 | _ => false end)). vm_compute. reflexivity. }
    intros; apply Q; auto. }
  assert (B : b64_isval c = false). { destruct (b64_isval c) eqn:B; auto. apply b64_isval_iff in B as (v & B). exfalso. eapply V; eauto. }
  rewrite B in G. replace (c =? 123) with false in G by lia. cbn [orb] in G. destruct (base64_decode_value c) as [f|?|?|]; try discriminate. exists f. split; auto. lia.
Qed.

Definition pend (st : b64dstep) (p : list bool) (cur : Z) : Prop :=
  match st with
  | Da => p = []
  | Db => exists a b c d e f, p = [a; b; c; d; e; f] /\ cur = val8 a b c d e f false false
  | Dc => exists a b c d, p = [a; b; c; d] /\ cur = val8 a b c d false false false false
  | Dd => exists a b, p = [a; b] /\ cur = val8 a b false false false false false false
  end.
Lemma forall_64 : forall (f : Z -> bool), forallb f (map Z.of_nat (seq 0 64)) = true -> forall x, 0 <= x < 64 -> f x = true.
Proof. intros f H x R. apply (forall_small 64 f H). lia. Qed.
Definition t6 (v i : Z) : bool := Z.odd (v / 2 ^ i).
Lemma bits6 : forall v, 0 <= v < 64 -> bits 6 v = [t6 v 5; t6 v 4; t6 v 3; t6 v 2; t6 v 1; t6 v 0].
Proof.
  intros v H. cbn [bits app]. unfold t6. rewrite !Z.div_div by lia. 
  change (2 ^ 5) with 32. change (2 ^ 4) with 16. change (2 ^ 3) with 8. change (2 ^ 2) with 4. change (2 ^ 1) with 2. change (2 ^ 0) with 1. rewrite Z.div_1_r. reflexivity.
Qed.
Lemma st_a : forall v, 0 <= v < 64 -> Z.shiftl (Z.land v 63) 2 = val8 (t6 v 5) (t6 v 4) (t6 v 3) (t6 v 2) (t6 v 1) (t6 v 0) false false.
Proof. intros v H. apply Z.eqb_eq. revert v H. apply (forall_64 (fun v => Z.shiftl (Z.land v 63) 2 =? val8 (t6 v 5) (t6 v 4) (t6 v 3) (t6 v 2) (t6 v 1) (t6 v 0) false false)). vm_compute. reflexivity. Qed.
Lemma st_b : forall a b c d e f v, 0 <= v < 64 ->
  Z.lor (val8 a b c d e f false false) (Z.shiftr (Z.land v 48) 4) = val8 a b c d e f (t6 v 5) (t6 v 4).
Proof.
  intros a b c d e f v H. apply Z.eqb_eq. revert v H. apply (forall_64 (fun v => Z.lor (val8 a b c d e f false false) (Z.shiftr (Z.land v 48) 4) =? val8 a b c d e f (t6 v 5) (t6 v 4))).
  destruct a, b, c, d, e, f; vm_compute; reflexivity.
Qed.
Lemma st_b' : forall v, 0 <= v < 64 -> Z.shiftl (Z.land v 15) 4 = val8 (t6 v 3) (t6 v 2) (t6 v 1) (t6 v 0) false false false false.
Proof. intros v H. apply Z.eqb_eq. revert v H. apply (forall_64 (fun v => Z.shiftl (Z.land v 15) 4 =? val8 (t6 v 3) (t6 v 2) (t6 v 1) (t6 v 0) false false false false)). vm_compute. reflexivity. Qed.
Lemma st_c : forall a b c d v, 0 <= v < 64 ->
  Z.lor (val8 a b c d false false false false) (Z.shiftr (Z.land v 60) 2) = val8 a b c d (t6 v 5) (t6 v 4) (t6 v 3) (t6 v 2).
Proof.
  intros a b c d v H. apply Z.eqb_eq. revert v H. apply (forall_64 (fun v => Z.lor (val8 a b c d false false false false) (Z.shiftr (Z.land v 60) 2) =? val8 a b c d (t6 v 5) (t6 v 4) (t6 v 3) (t6 v 2))).
  destruct a, b, c, d; vm_compute; reflexivity.
Qed.
Lemma st_c' : forall v, 0 <= v < 64 -> Z.shiftl (Z.land v 3) 6 = val8 (t6 v 1) (t6 v 0) false false false false false false.
Proof. intros v H. apply Z.eqb_eq. revert v H. apply (forall_64 (fun v => Z.shiftl (Z.land v 3) 6 =? val8 (t6 v 1) (t6 v 0) false false false false false false)). vm_compute. reflexivity. Qed.
Lemma st_d : forall a b v, 0 <= v < 64 ->
  Z.lor (val8 a b false false false false false false) (Z.land v 63) = val8 a b (t6 v 5) (t6 v 4) (t6 v 3) (t6 v 2) (t6 v 1) (t6 v 0).
Proof.
  intros a b v H. apply Z.eqb_eq. revert v H. apply (forall_64 (fun v => Z.lor (val8 a b false false false false false false) (Z.land v 63) =? val8 a b (t6 v 5) (t6 v 4) (t6 v 3) (t6 v 2) (t6 v 1) (t6 v 0))).
  destruct a, b; vm_compute; reflexivity.
Qed.

Lemma b64_decode_chars : forall s vs, b64_chars s vs -> forall st cap out cur p, bytes_ok s -> pend st p cur ->
  zlen out + zlen s + dec_slack st <= cap -> b64_decode_block s st cap out cur = Ok (out ++ chop (p ++ bit_string 6 vs)).
Proof.
  induction 1 as [|c v s vs [R ->] H IH|c s vs V N H IH]; intros st cap out cur p F P L.
  - change (zlen (@nil Z)) with 0 in L. cbn [b64_decode_block]. assert (1 <= dec_slack st) by (destruct st; cbn; lia). replace (zlen out <? cap) with true by lia.
    rewrite chop_short, app_nil_r; auto. unfold bit_string. cbn [map concat]. rewrite app_nil_r.
    destruct st; cbn in P; [subst p; cbn; lia|destruct P as (? & ? & ? & ? & ? & ? & -> & _)|destruct P as (? & ? & ? & ? & -> & _)|destruct P as (? & ? & -> & _)]; cbn; lia.
  - apply bytes_ok_cons in F as [_ F]. rewrite zlen_cons in L. pose proof (zlen_nonneg _ s).
    cbn [b64_decode_block]. rewrite dec_value64 by auto. cbn [bind]. replace (v <? 0) with false by lia.
    unfold bit_string. cbn [map concat]. fold (bit_string 6 vs). rewrite bits6 by auto.
    destruct st; cbn [dec_slack] in L; cbn [pend] in P.
    + subst p. rewrite push_ok by (change (zlen [0]) with 1; lia). cbn [bind].
      rewrite (IH Db cap out _ [t6 v 5; t6 v 4; t6 v 3; t6 v 2; t6 v 1; t6 v 0]); [|exact F|cbn [pend]; do 6 eexists; split; [reflexivity|apply st_a; auto]|cbn [dec_slack]; lia].
      reflexivity.
    + destruct P as (a & b & c & d & e & f & -> & ->). rewrite push_ok by (change (zlen [0; 0]) with 2; lia). cbn [bind]. rewrite st_b by auto.
      rewrite (IH Dc cap _ _ [t6 v 3; t6 v 2; t6 v 1; t6 v 0]); [|exact F|cbn [pend]; do 4 eexists; split; [reflexivity|apply st_b'; auto]|cbn [dec_slack]; rewrite zlen_app; change (zlen [_]) with 1; lia].
      rewrite <- app_assoc. reflexivity.
    + destruct P as (a & b & c & d & -> & ->). rewrite push_ok by (change (zlen [0; 0]) with 2; lia). cbn [bind]. rewrite st_c by auto.
      rewrite (IH Dd cap _ _ [t6 v 1; t6 v 0]); [|exact F|cbn [pend]; do 2 eexists; split; [reflexivity|apply st_c'; auto]|cbn [dec_slack]; rewrite zlen_app; change (zlen [_]) with 1; lia].
      rewrite <- app_assoc. reflexivity.
    + destruct P as (a & b & -> & ->). rewrite push_ok by (change (zlen [0]) with 1; lia). cbn [bind]. rewrite st_d by auto.
      rewrite (IH Da cap _ _ []); [|exact F|cbn [pend]; reflexivity|cbn [dec_slack]; rewrite zlen_app; change (zlen [_]) with 1; lia].
      rewrite <- app_assoc. reflexivity.
  - apply bytes_ok_cons in F as [Bc F]. rewrite zlen_cons in L. destruct (dec_other c Bc N V) as (f & E & Lf).
    cbn [b64_decode_block]. rewrite E. cbn [bind]. replace (f <? 0) with true by lia. apply IH; auto. lia.
Qed.

Lemma b64_chars_exist : forall s, ~ In 123 s -> exists vs, b64_chars s vs.
Proof.
  induction s as [|c s IH]; intros N; [exists []; constructor|]. destruct IH as (vs & H); [intros X; apply N; right; auto|].
  destruct (b64_isval c) eqn:E.
  - apply b64_isval_iff in E as (v & V). exists (v :: vs). constructor; auto.
  - exists vs. apply bd_other; auto.
    + intros v V. assert (b64_isval c = true) by (apply b64_isval_iff; eauto). congruence.
    + intros ->. apply N. left. reflexivity.
Qed.
Lemma b64_chars_clean : forall s vs, b64_chars s vs -> ~ In 123 s.
Proof.
  induction 1 as [|c v s vs [R ->] H IH|c s vs V N H IH]; [intros []|intros [E|E]; auto; pose proof (b64_char_byte v R); lia|intros [E|E]; auto].
Qed.
Lemma base64_iff : forall s l, bytes_ok s -> (base64_str_to_bytes s = Ok l <-> exists vs, b64_chars s vs /\ octets_of (bit_string 6 vs) l).
Proof.
  intros s l F. unfold base64_str_to_bytes.
  assert (K : forall vs, b64_chars s vs -> b64_decode_block s Da (zlen s + 1) [] 0 = Ok (chop (bit_string 6 vs))).
  { intros vs H. rewrite (b64_decode_chars s vs H Da _ [] 0 []); [reflexivity|exact F|reflexivity|cbn [dec_slack]; change (zlen (@nil Z)) with 0; lia]. }
  split.
  - intros H. destruct (in_dec Z.eq_dec 123 s) as [I|I].
    { rewrite decode_brace in H; [discriminate|auto|auto|cbn [dec_slack]; change (zlen (@nil Z)) with 0; lia]. }
    destruct (b64_chars_exist s I) as (vs & V). rewrite (K vs V) in H. injection H as <-. exists vs. split; auto. apply octets_chop. reflexivity.
  - intros (vs & V & O). apply octets_chop in O. rewrite (K vs V), O. reflexivity.
Qed.
Lemma chop_length : forall n l, (length l <= n)%nat -> (8 * length (chop l) <= length l)%nat.
Proof.
  induction n as [|n IH]; intros l L; [destruct l; cbn in *; lia|].
  destruct (le_lt_dec 8 (length l)) as [G|G]; [|rewrite chop_short by auto; cbn; lia].
  do 8 (destruct l as [|? l]; [cbn in G; lia|]). cbn [chop length] in *. specialize (IH l). lia.
Qed.
Lemma bit_string_length : forall n vs, length (bit_string n vs) = (n * length vs)%nat.
Proof. induction vs as [|v vs IH]; unfold bit_string in *; cbn [map concat length]; [lia|]. rewrite app_length, bits_length, IH. lia. Qed.
Lemma b64_chars_length : forall s vs, b64_chars s vs -> (length vs <= length s)%nat.
Proof. induction 1; cbn [length]; lia. Qed.
Lemma base64_len_le : forall s l, bytes_ok s -> base64_str_to_bytes s = Ok l -> zlen l <= zlen s.
Proof.
  intros s l F H. apply base64_iff in H as (vs & V & O); auto. apply octets_chop in O. subst l. pose proof (chop_length _ (bit_string 6 vs) (le_n _)).
  rewrite bit_string_length in H. pose proof (b64_chars_length _ _ V). unfold zlen. lia.
Qed.

(** ** Base 32 *)
Lemma forall_32 : forall (f : Z -> bool), forallb f (map Z.of_nat (seq 0 32)) = true -> forall x, 0 <= x < 32 -> f x = true.
Proof. intros f H x R. apply (forall_small 32 f H). lia. Qed.
Lemma forall_32_2 : forall (f : Z -> Z -> bool), forallb (fun a => forallb (f a) (map Z.of_nat (seq 0 32))) (map Z.of_nat (seq 0 32)) = true ->
  forall x y, 0 <= x < 32 -> 0 <= y < 32 -> f x y = true.
Proof. intros f H x y X Y. apply (forall_32 (f x)); auto. revert x X. apply (forall_32 (fun a => forallb (f a) (map Z.of_nat (seq 0 32)))). exact H. Qed.
Lemma forall_32_3 : forall (f : Z -> Z -> Z -> bool),
  forallb (fun a => forallb (fun b => forallb (f a b) (map Z.of_nat (seq 0 32))) (map Z.of_nat (seq 0 32))) (map Z.of_nat (seq 0 32)) = true ->
  forall x y z, 0 <= x < 32 -> 0 <= y < 32 -> 0 <= z < 32 -> f x y z = true.
Proof. intros f H x y z X Y Z0. apply (forall_32_2 (f x)); auto. revert x X. apply (forall_32 (fun a => forallb (fun b => forallb (f a b) (map Z.of_nat (seq 0 32))) (map Z.of_nat (seq 0 32)))). exact H. Qed.

Lemma bits5 : forall v, bits 5 v = [t6 v 4; t6 v 3; t6 v 2; t6 v 1; t6 v 0].
Proof.
  intros v. cbn [bits app]. unfold t6. rewrite !Z.div_div by lia. 
  change (2 ^ 4) with 16. change (2 ^ 3) with 8. change (2 ^ 2) with 4. change (2 ^ 1) with 2. change (2 ^ 0) with 1. rewrite Z.div_1_r. reflexivity.
Qed.
Lemma o32_0 : forall a b, 0 <= a < 32 -> 0 <= b < 32 -> Z.lor (Z.land (Z.shiftl a 3) 248) (Z.land (Z.shiftr b 2) 7) =
  val8 (t6 a 4) (t6 a 3) (t6 a 2) (t6 a 1) (t6 a 0) (t6 b 4) (t6 b 3) (t6 b 2).
Proof. intros a b A B. apply Z.eqb_eq. revert a b A B. apply (forall_32_2 (fun a b => Z.lor (Z.land (Z.shiftl a 3) 248) (Z.land (Z.shiftr b 2) 7) =? val8 (t6 a 4) (t6 a 3) (t6 a 2) (t6 a 1) (t6 a 0) (t6 b 4) (t6 b 3) (t6 b 2))). vm_compute. reflexivity. Qed.
Lemma o32_1 : forall a b c, 0 <= a < 32 -> 0 <= b < 32 -> 0 <= c < 32 -> Z.lor (Z.lor (Z.shiftl (Z.land a 3) 6) (Z.shiftl (Z.land b 31) 1)) (Z.land (Z.shiftr c 4) 1) =
  val8 (t6 a 1) (t6 a 0) (t6 b 4) (t6 b 3) (t6 b 2) (t6 b 1) (t6 b 0) (t6 c 4).
Proof. intros a b c A B C. apply Z.eqb_eq. revert a b c A B C. apply (forall_32_3 (fun a b c => Z.lor (Z.lor (Z.shiftl (Z.land a 3) 6) (Z.shiftl (Z.land b 31) 1)) (Z.land (Z.shiftr c 4) 1) =? val8 (t6 a 1) (t6 a 0) (t6 b 4) (t6 b 3) (t6 b 2) (t6 b 1) (t6 b 0) (t6 c 4))). vm_compute. reflexivity. Qed.
Lemma o32_2 : forall a b, 0 <= a < 32 -> 0 <= b < 32 -> Z.lor (Z.shiftl (Z.land a 15) 4) (Z.land (Z.shiftr b 1) 15) =
  val8 (t6 a 3) (t6 a 2) (t6 a 1) (t6 a 0) (t6 b 4) (t6 b 3) (t6 b 2) (t6 b 1).
Proof. intros a b A B. apply Z.eqb_eq. revert a b A B. apply (forall_32_2 (fun a b => Z.lor (Z.shiftl (Z.land a 15) 4) (Z.land (Z.shiftr b 1) 15) =? val8 (t6 a 3) (t6 a 2) (t6 a 1) (t6 a 0) (t6 b 4) (t6 b 3) (t6 b 2) (t6 b 1))). vm_compute. reflexivity. Qed.
Lemma o32_3 : forall a b c, 0 <= a < 32 -> 0 <= b < 32 -> 0 <= c < 32 -> Z.lor (Z.lor (Z.shiftl (Z.land a 1) 7) (Z.shiftl (Z.land b 31) 2)) (Z.land (Z.shiftr c 3) 3) =
  val8 (t6 a 0) (t6 b 4) (t6 b 3) (t6 b 2) (t6 b 1) (t6 b 0) (t6 c 4) (t6 c 3).
Proof. intros a b c A B C. apply Z.eqb_eq. revert a b c A B C. apply (forall_32_3 (fun a b c => Z.lor (Z.lor (Z.shiftl (Z.land a 1) 7) (Z.shiftl (Z.land b 31) 2)) (Z.land (Z.shiftr c 3) 3) =? val8 (t6 a 0) (t6 b 4) (t6 b 3) (t6 b 2) (t6 b 1) (t6 b 0) (t6 c 4) (t6 c 3))). vm_compute. reflexivity. Qed.
Lemma o32_4 : forall a b, 0 <= a < 32 -> 0 <= b < 32 -> Z.lor (Z.shiftl (Z.land a 7) 5) (Z.land b 31) =
  val8 (t6 a 2) (t6 a 1) (t6 a 0) (t6 b 4) (t6 b 3) (t6 b 2) (t6 b 1) (t6 b 0).
Proof. intros a b A B. apply Z.eqb_eq. revert a b A B. apply (forall_32_2 (fun a b => Z.lor (Z.shiftl (Z.land a 7) 5) (Z.land b 31) =? val8 (t6 a 2) (t6 a 1) (t6 a 0) (t6 b 4) (t6 b 3) (t6 b 2) (t6 b 1) (t6 b 0))). vm_compute. reflexivity. Qed.

Local Opaque val8 t6 Z.lor Z.land Z.shiftl Z.shiftr.
Lemma b32_octets_chop : forall s, Forall (fun v => 0 <= v < 32) s -> (length s <= 8)%nat -> b32_octets s = chop (bit_string 5 s).
Proof.
  intros s F L. unfold bit_string, b32_octets.
  destruct s as [|v0 s]; [reflexivity|]. destruct s as [|v1 s]; [cbn [map concat]; rewrite !bits5; reflexivity|].
  destruct s as [|v2 s]. { inversion F; inversion H2; subst. cbn [map concat]; rewrite !bits5. cbn -[Z.mul]. rewrite o32_0 by auto. reflexivity. }
  destruct s as [|v3 s]. { inversion F as [|? ? F0 F']; inversion F' as [|? ? F1 F'']; subst. cbn [map concat]; rewrite !bits5. cbn -[Z.mul]. rewrite o32_0 by auto. reflexivity. }
  inversion F as [|? ? F0 F1']; inversion F1' as [|? ? F1 F2']; inversion F2' as [|? ? F2 F3']; inversion F3' as [|? ? F3 F4']; subst. 
  destruct s as [|v4 s]. { cbn [map concat]; rewrite !bits5. cbn -[Z.mul]. rewrite o32_0, o32_1 by auto. reflexivity. }
  inversion F4' as [|? ? F4 F5']; subst.
  destruct s as [|v5 s]. { cbn [map concat]; rewrite !bits5. cbn -[Z.mul]. rewrite o32_0, o32_1, o32_2 by auto. reflexivity. }
  inversion F5' as [|? ? F5 F6']; subst.
  destruct s as [|v6 s]. { cbn [map concat]; rewrite !bits5. cbn -[Z.mul]. rewrite o32_0, o32_1, o32_2 by auto. reflexivity. }
  inversion F6' as [|? ? F6 F7']; subst.
  destruct s as [|v7 s]. { cbn [map concat]; rewrite !bits5. cbn -[Z.mul]. rewrite o32_0, o32_1, o32_2, o32_3 by auto. reflexivity. }
  inversion F7' as [|? ? F7 F8']; subst.
  destruct s as [|v8 s]; [|cbn [length] in L; lia]. cbn [map concat]; rewrite !bits5. cbn -[Z.mul]. rewrite o32_0, o32_1, o32_2, o32_3, o32_4 by auto. reflexivity.
Qed.
Lemma chop_bit_string : forall l b, bytes_ok l -> chop (bit_string 8 l ++ b) = l ++ chop b.
Proof.
  induction l as [|v l IH]; intros b F; [reflexivity|]. apply bytes_ok_cons in F as [V F].
  unfold bit_string. cbn [map concat]. rewrite <- app_assoc, chop_byte by auto. cbn [app]. f_equal. apply IH; auto.
Qed.
Lemma bit_string_app : forall n a b, bit_string n (a ++ b) = bit_string n a ++ bit_string n b.
Proof. intros. unfold bit_string. rewrite map_app, concat_app. reflexivity. Qed.
Lemma chop_forty : forall s vs, length s = 8%nat -> chop (bit_string 5 (s ++ vs)) = chop (bit_string 5 s) ++ chop (bit_string 5 vs).
Proof.
  intros s vs L. rewrite bit_string_app. destruct (chop_ok _ (bit_string 5 s) (le_n _)) as (F & t & T & E).
  assert (LE : length (bit_string 5 s) = 40%nat) by (rewrite bit_string_length; lia).
  assert (t = []). { rewrite E, app_length, bit_string_length in LE. destruct t; auto. cbn [length] in *. lia. }
  subst t. rewrite app_nil_r in E. rewrite E at 1. apply chop_bit_string; auto.
Qed.

Lemma b32_map_iff : forall c v, is_byte c -> 0 <= v < 32 -> (base32_map c = v <-> b32_value_of c v).
Proof.
  intros c v C V.
  assert (G : Bool.eqb (base32_map c =? v) ((c =? b32_char v) || ((10 <=? v) && (c =? b32_char v + 32))) = true).
  { revert v V. apply (forall_32 (fun v => Bool.eqb (base32_map c =? v) ((c =? b32_char v) || ((10 <=? v) && (c =? b32_char v + 32))))).
    revert c C. apply (forall_bytes (fun c => forallb (fun v => Bool.eqb (base32_map c =? v) ((c =? b32_char v) || ((10 <=? v) && (c =? b32_char v + 32)))) (map Z.of_nat (seq 0 32)))).
    vm_compute. reflexivity. }
  apply Bool.eqb_prop in G. unfold b32_value_of. lia.
Qed.
Lemma b32_value_not_pad : forall c v, b32_value_of c v -> c <> 61.
Proof. intros c v (R & [->|(G & ->)]); unfold b32_char; destruct (v <=? 9) eqn:E; lia. Qed.
Lemma b32_bad_iff : forall c, is_byte c -> base32_map c <> 255 -> exists v, b32_value_of c v /\ base32_map c = v /\ 0 <= v < 32.
Proof. intros c C N. destruct (b32_map_range c) as [E|E]; [congruence|]. exists (base32_map c). split; [apply b32_map_iff; auto|auto]. Qed.

Definition b32_good (c : Z) : Prop := c = 61 \/ exists v, b32_value_of c v.
Lemma b32_dloop_pad : forall data size dst, bytes_ok data -> Forall b32_good data -> zlen dst + zlen data <= size ->
  b32_dloop data size [] true dst = Ok (Some dst).
Proof.
  induction data as [|c r IH]; intros size dst B F L; [reflexivity|]. apply bytes_ok_cons in B as [Bc B]. inversion F as [|? ? Gc F']; subst.
  rewrite zlen_cons in L. pose proof (zlen_nonneg _ r). cbn [b32_dloop orb].
  assert (Q : forall s, (length s <= 1)%nat -> firstn (Z.to_nat (size - zlen dst)) (b32_octets s) = []).
  { intros s S1. destruct s as [|? [|? s]]; cbn in S1; try lia; apply firstn_nil. }
  destruct Gc as [->|(v & V)].
  - change (61 =? 61) with true. cbn [negb andb]. change (zlen (@nil Z)) with 0. change (0 >? 8) with false. rewrite ?orb_true_r. cbn [orb].
    rewrite Q by (cbn; lia). rewrite app_nil_r. replace (zlen dst =? size) with false by lia. apply IH; auto; lia.
  - pose proof (b32_value_not_pad c v V). assert (R : 0 <= v < 32) by (destruct V; auto). apply b32_map_iff in V; auto. rewrite V.
    replace (c =? 61) with false by lia. replace (v =? 255) with false by lia. cbn [negb andb app]. change (zlen [v]) with 1. change (1 >? 8) with false. rewrite ?orb_true_r. cbn [orb].
    rewrite Q by (cbn; lia). rewrite app_nil_r. replace (zlen dst =? size) with false by lia. apply IH; auto; lia.
Qed.

Lemma b32_dloop_chars : forall data vs, b32_chars data vs -> forall size s dst, bytes_ok data -> Forall (fun v => 0 <= v < 32) s ->
  (length s <= 7)%nat -> data <> [] \/ s = [] -> zlen dst + zlen s + zlen data <= size ->
  b32_dloop data size s false dst = Ok (Some (dst ++ chop (bit_string 5 (s ++ vs)))).
Proof.
  induction 1 as [|c v r vs V H IH|r G]; intros size s dst B F Ls D L.
  - destruct D as [D| ->]; [congruence|]. cbn [b32_dloop app]. unfold bit_string. cbn [map concat chop]. rewrite app_nil_r. reflexivity.
  - apply bytes_ok_cons in B as [Bc B]. rewrite zlen_cons in L. pose proof (zlen_nonneg _ r). pose proof (zlen_nonneg _ s). pose proof (zlen_nonneg _ dst).
    pose proof (b32_value_not_pad c v V). assert (R : 0 <= v < 32) by (destruct V; auto). apply b32_map_iff in V; auto.
    assert (F' : Forall (fun v => 0 <= v < 32) (s ++ [v])) by (apply Forall_app; split; auto).
    assert (L8 : (length (s ++ [v]) <= 8)%nat) by (rewrite app_length; cbn; lia).
    assert (ZS : zlen s = Z.of_nat (length s)) by reflexivity.
    cbn [b32_dloop]. rewrite V. replace (c =? 61) with false by lia. replace (v =? 255) with false by lia. cbn [negb andb orb].
    assert (Z1 : zlen (s ++ [v]) = zlen s + 1) by (rewrite zlen_app; reflexivity). rewrite Z1. replace (zlen s + 1 >? 8) with false by lia. rewrite !orb_false_r.
    pose proof (b32_octets_len (s ++ [v])) as [_ O]. specialize (O ltac:(destruct s; discriminate)). rewrite Z1 in O.
    pose proof (zlen_nonneg _ (b32_octets (s ++ [v]))) as OP.
    assert (FN : firstn (Z.to_nat (size - zlen dst)) (b32_octets (s ++ [v])) = b32_octets (s ++ [v])).
    { apply firstn_all2. unfold zlen in *. lia. }
    assert (CO := b32_octets_chop _ F' L8).
    assert (LD : zlen (dst ++ b32_octets (s ++ [v])) < size) by (rewrite zlen_app; lia).
    replace (s ++ v :: vs) with ((s ++ [v]) ++ vs) by (rewrite <- app_assoc; reflexivity).
    destruct (zlen s + 1 =? 8) eqn:E8; cbn [orb].
    + rewrite FN. replace (zlen (dst ++ b32_octets (s ++ [v])) =? size) with false by lia.
      rewrite (IH size [] (dst ++ b32_octets (s ++ [v]))); [|exact B|apply Forall_nil|cbn [length]; lia|right; reflexivity|change (zlen (@nil Z)) with 0; rewrite zlen_app; lia].
      cbn [app]. rewrite (chop_forty (s ++ [v]) vs) by (rewrite app_length; cbn; lia). rewrite <- CO, <- app_assoc. reflexivity.
    + destruct r as [|c2 r].
      * rewrite FN. replace (zlen (dst ++ b32_octets (s ++ [v])) =? size) with false by lia. inversion H; subst. rewrite app_nil_r. cbn [b32_dloop]. rewrite CO. reflexivity.
      * replace (zlen dst =? size) with false by lia. apply IH; auto; [rewrite app_length; cbn; lia|left; discriminate|lia].
  - apply bytes_ok_cons in B as [_ B]. rewrite zlen_cons in L. pose proof (zlen_nonneg _ r). pose proof (zlen_nonneg _ s). pose proof (zlen_nonneg _ dst).
    assert (ZS : zlen s = Z.of_nat (length s)) by reflexivity.
    cbn [b32_dloop]. change (61 =? 61) with true. cbn [negb andb]. replace (zlen s >? 8) with false by lia. rewrite ?orb_true_r. cbn [orb]. rewrite app_nil_r.
    assert (CO := b32_octets_chop _ F ltac:(lia)). pose proof (b32_octets_len s) as [O _].
    assert (FN : firstn (Z.to_nat (size - zlen dst)) (b32_octets s) = b32_octets s) by (apply firstn_all2; unfold zlen in *; lia).
    rewrite FN. assert (LD : zlen (dst ++ b32_octets s) <= zlen dst + zlen s) by (rewrite zlen_app; lia).
    replace (zlen (dst ++ b32_octets s) =? size) with false by lia. rewrite CO. apply b32_dloop_pad; auto. rewrite CO in LD. lia.
Qed.
Lemma b32_chars_exist : forall s, Forall b32_good s -> exists vs, b32_chars s vs.
Proof.
  induction s as [|c s IH]; intros F; [exists []; constructor|]. inversion F as [|? ? [->|(v & V)] F']; subst.
  - exists []. apply br_pad. exact F'.
  - destruct (IH F') as (vs & H). exists (v :: vs). constructor; auto.
Qed.
Lemma b32_good_digit : forall c, is_byte c -> b32_good c <-> c = 61 \/ b32_digit c.
Proof.
  intros c C. split; (intros [E|E]; [left; exact E|right]).
  - destruct E as (v & R & [->|(G & ->)]); unfold b32_char, b32_digit; destruct (v <=? 9) eqn:E; lia.
  - unfold b32_digit in E. unfold b32_value_of, b32_char. destruct E as [E|[E|E]].
    + exists (c - 48). replace (c - 48 <=? 9) with true by lia. lia.
    + exists (c - 55). replace (c - 55 <=? 9) with false by lia. lia.
    + exists (c - 87). replace (c - 87 <=? 9) with false by lia. lia.
Qed.
Lemma base32_iff : forall s l, bytes_ok s -> (base32_decode (zlen s) s = Ok (Some l) <-> exists vs, b32_chars s vs /\ octets_of (bit_string 5 vs) l).
Proof.
  intros s l F. unfold base32_decode.
  assert (K : forall vs, b32_chars s vs -> b32_dloop s (zlen s) [] false [] = Ok (Some (chop (bit_string 5 vs)))).
  { intros vs H. rewrite (b32_dloop_chars s vs H); [reflexivity|exact F|apply Forall_nil|cbn [length]; lia|right; reflexivity|change (zlen (@nil Z)) with 0; lia]. }
  split.
  - intros H. assert (G : Forall b32_good s).
    { destruct (Exists_dec (fun c => c <> 61 /\ ~ b32_digit c) s) as [X|X].
      - intros c. unfold b32_digit. destruct (Z.eq_dec c 61); [right; tauto|]. destruct (((48 <=? c) && (c <=? 57)) || ((65 <=? c) && (c <=? 86)) || ((97 <=? c) && (c <=? 118))) eqn:E; [right; intros [_ Q]; apply Q; lia|left; split; auto; lia].
      - rewrite b32_reject in H; [discriminate|cbn; lia|change (zlen (@nil Z)) with 0; lia|auto].
      - apply Forall_forall. intros c I. apply b32_good_digit; [eapply Forall_forall in F; eauto|].
        destruct (Z.eq_dec c 61); auto. right. destruct (((48 <=? c) && (c <=? 57)) || ((65 <=? c) && (c <=? 86)) || ((97 <=? c) && (c <=? 118))) eqn:E; [unfold b32_digit; lia|].
        exfalso. apply X. apply Exists_exists. exists c. split; auto. split; auto. unfold b32_digit. lia. }
    destruct (b32_chars_exist s G) as (vs & V). rewrite (K vs V) in H. injection H as <-. exists vs. split; auto. apply octets_chop. reflexivity.
  - intros (vs & V & O). apply octets_chop in O. rewrite (K vs V), O. reflexivity.
Qed.
