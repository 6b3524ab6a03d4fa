(** Lib.v: lemmas on octet lists and the memory primitives of Base.v. *)
From Verif Require Import Base.

(** ** zlen *)
Lemma zlen_nil : forall A, zlen (@nil A) = 0.
Proof. reflexivity. Qed.
Lemma zlen_cons : forall A (a : A) l, zlen (a :: l) = zlen l + 1.
Proof. intros; unfold zlen; simpl length; lia. Qed.
Lemma zlen_app : forall A (l r : list A), zlen (l ++ r) = zlen l + zlen r.
Proof. intros; unfold zlen; rewrite app_length; lia. Qed.
Lemma zlen_nonneg : forall A (l : list A), 0 <= zlen l.
Proof. intros; unfold zlen; lia. Qed.
Lemma zlen_rev : forall A (l : list A), zlen (rev l) = zlen l.
Proof. intros; unfold zlen; rewrite rev_length; reflexivity. Qed.
Lemma zlen_map : forall A B (f : A -> B) l, zlen (map f l) = zlen l.
Proof. intros; unfold zlen; rewrite map_length; reflexivity. Qed.
Lemma zlen_repeat : forall A (a : A) n, zlen (repeat a n) = Z.of_nat n.
Proof. intros; unfold zlen; rewrite repeat_length; reflexivity. Qed.
Lemma zlen_firstn : forall A (l : list A) n, 0 <= n <= zlen l -> zlen (firstn (Z.to_nat n) l) = n.
Proof. intros A l n H; unfold zlen in *; rewrite firstn_length; lia. Qed.
Lemma zlen_skipn : forall A (l : list A) n, 0 <= n <= zlen l -> zlen (skipn (Z.to_nat n) l) = zlen l - n.
Proof. intros A l n H; unfold zlen in *; rewrite skipn_length; lia. Qed.
Lemma zlen_zero : forall A (l : list A), zlen l = 0 -> l = [].
Proof. intros A [|a l] H; auto. rewrite zlen_cons in H. pose proof (zlen_nonneg _ l). lia. Qed.
Lemma zlen_to_nat : forall A (l : list A), Z.to_nat (zlen l) = length l.
Proof. intros; unfold zlen; lia. Qed.
Lemma zlen_concat_cons : forall A (l : list A) ls, zlen (concat (l :: ls)) = zlen l + zlen (concat ls).
Proof. intros; simpl; apply zlen_app. Qed.

Ltac zl := repeat (rewrite ?zlen_cons, ?zlen_app, ?zlen_nil, ?zlen_rev, ?zlen_map, ?zlen_repeat in *).
Ltac zlia := zl; lia.

(** ** firstn/skipn at exact lengths *)
Lemma firstn_zlen_app : forall A (a b : list A), firstn (Z.to_nat (zlen a)) (a ++ b) = a.
Proof.
  intros; rewrite zlen_to_nat, firstn_app, Nat.sub_diag, firstn_all. simpl. apply app_nil_r.
Qed.
Lemma skipn_zlen_app : forall A (a b : list A), skipn (Z.to_nat (zlen a)) (a ++ b) = b.
Proof.
  intros; rewrite zlen_to_nat, skipn_app, Nat.sub_diag, skipn_all. reflexivity.
Qed.
Lemma firstn_app_exact : forall A (a b : list A) n, zlen a = n -> firstn (Z.to_nat n) (a ++ b) = a.
Proof. intros; subst; apply firstn_zlen_app. Qed.
Lemma skipn_app_exact : forall A (a b : list A) n, zlen a = n -> skipn (Z.to_nat n) (a ++ b) = b.
Proof. intros; subst; apply skipn_zlen_app. Qed.

(** ** [octets_at m i l]: the octets [l] lie in [m] at offset [i] *)
Definition octets_at (m : bytes) (i : Z) (l : bytes) : Prop :=
  exists pre post, m = pre ++ l ++ post /\ zlen pre = i.

Lemma octets_at_bound : forall m i l, octets_at m i l -> 0 <= i /\ i + zlen l <= zlen m.
Proof.
  intros m i l (pre & post & E & L). subst. zl. pose proof (zlen_nonneg _ pre). pose proof (zlen_nonneg _ post). lia.
Qed.

Lemma octets_at_det : forall m i l l', octets_at m i l -> octets_at m i l' -> zlen l = zlen l' -> l = l'.
Proof.
  intros m i l l' (p & q & E & L) (p' & q' & E' & L') H.
  assert (P : p = p').
  { rewrite <- (firstn_app_exact _ p (l ++ q) i L), <- (firstn_app_exact _ p' (l' ++ q') i L'). congruence. }
  subst p'. rewrite E in E'. apply app_inv_head in E'.
  rewrite <- (firstn_app_exact _ l q (zlen l) eq_refl), E'. apply firstn_app_exact. auto.
Qed.

Lemma octets_at_skip : forall m i l, octets_at m i l -> exists post, skipn (Z.to_nat i) m = l ++ post.
Proof. intros m i l (p & q & E & L). exists q. subst m. apply skipn_app_exact; auto. Qed.

Lemma octets_at_intro : forall m i n, 0 <= i -> 0 <= n -> i + n <= zlen m ->
  octets_at m i (firstn (Z.to_nat n) (skipn (Z.to_nat i) m)).
Proof.
  intros m i n Hi Hn H. exists (firstn (Z.to_nat i) m), (skipn (Z.to_nat n) (skipn (Z.to_nat i) m)). split.
  - rewrite firstn_skipn, firstn_skipn. reflexivity.
  - apply zlen_firstn. lia.
Qed.

Lemma octets_at_app : forall m i a b, octets_at m i (a ++ b) <-> octets_at m i a /\ octets_at m (i + zlen a) b.
Proof.
  intros m i a b; split.
  - intros (p & q & E & L). split.
    + exists p, (b ++ q). rewrite E, <- app_assoc. auto.
    + exists (p ++ a), q. rewrite E. rewrite <- !app_assoc. split; auto. zlia.
  - intros ((p & q & E & L) & (p' & q' & E' & L')).
    assert (P : p' = p ++ a).
    { rewrite <- (firstn_app_exact _ p' (b ++ q') (i + zlen a) L'), <- E', E, app_assoc.
      apply firstn_app_exact. zlia. }
    exists p, q'. subst p'. rewrite E', <- !app_assoc. auto.
Qed.

Lemma octets_at_cons : forall m i a b, octets_at m i (a :: b) <-> octets_at m i [a] /\ octets_at m (i + 1) b.
Proof. intros. exact (octets_at_app m i [a] b). Qed.

Lemma octets_at_self : forall l, octets_at l 0 l.
Proof. intros l. exists [], []. rewrite app_nil_r. auto. Qed.

Lemma octets_at_in : forall a l b, octets_at (a ++ l ++ b) (zlen a) l.
Proof. intros. exists a, b. auto. Qed.

Lemma octets_at_ext : forall m x i l, octets_at m i l -> octets_at (m ++ x) i l.
Proof. intros m x i l (p & q & E & L). exists p, (q ++ x). subst. rewrite <- !app_assoc. auto. Qed.

Lemma octets_at_ext_inv : forall m x i l, octets_at (m ++ x) i l -> i + zlen l <= zlen m -> octets_at m i l.
Proof.
  intros m x i l H B. pose proof (octets_at_bound _ _ _ H) as [B1 B2]. pose proof (zlen_nonneg _ l).
  pose proof (octets_at_intro m i (zlen l) ltac:(lia) ltac:(lia) ltac:(lia)) as H1.
  rewrite (octets_at_det _ _ _ _ H (octets_at_ext _ x _ _ H1)); auto.
  pose proof (octets_at_bound _ _ _ H1).
  rewrite zlen_firstn; auto. rewrite zlen_skipn; lia.
Qed.

Lemma octets_at_bytes : forall m i l, bytes_ok m -> octets_at m i l -> bytes_ok l.
Proof.
  intros m i l H (p & q & E & L). subst. unfold bytes_ok in *. rewrite !Forall_app in H. tauto.
Qed.

(** ** rd, rds *)
Lemma rd_ok : forall m i b, rd m i = Ok b <-> octets_at m i [b].
Proof.
  intros m i b. unfold rd. destruct (i <? 0) eqn:E.
  - split; [discriminate|]. intros H. apply octets_at_bound in H. lia.
  - destruct (nth_error m (Z.to_nat i)) eqn:N.
    + split.
      * intros [= <-]. apply nth_error_split in N as (l1 & l2 & -> & Hl). exists l1, l2. split; auto. unfold zlen. lia.
      * intros (p & q & -> & L). unfold zlen in L. rewrite nth_error_app2 in N by lia.
        replace (Z.to_nat i - length p)%nat with 0%nat in N by lia. simpl in N. congruence.
    + split; [discriminate|]. intros H. apply octets_at_bound in H. apply nth_error_None in N.
      unfold zlen in H. simpl in H. lia.
Qed.

Lemma rd_cases : forall m i, (exists b, rd m i = Ok b /\ 0 <= i < zlen m) \/ (rd m i = UB OobRead /\ ~ (0 <= i < zlen m)).
Proof.
  intros m i. destruct (rd m i) eqn:E.
  - left. exists a. split; auto. apply rd_ok, octets_at_bound in E. zl. lia.
  - unfold rd in E. destruct (i <? 0), (nth_error m (Z.to_nat i)); discriminate.
  - right. unfold rd in E. destruct (i <? 0) eqn:E0; [split; [congruence|lia]|].
    destruct (nth_error m (Z.to_nat i)) eqn:N; [discriminate|]. apply nth_error_None in N. unfold zlen. split; [auto|lia].
  - unfold rd in E. destruct (i <? 0), (nth_error m (Z.to_nat i)); discriminate.
Qed.

Lemma rd_byte : forall m i b, bytes_ok m -> rd m i = Ok b -> 0 <= b < 256.
Proof.
  intros m i b H E. apply rd_ok in E. apply (octets_at_bytes _ _ _ H) in E. inversion E; auto.
Qed.

Lemma rds_ok : forall m i n l, rds m i n = Ok l <-> octets_at m i l /\ zlen l = n.
Proof.
  intros m i n l. unfold rds. split.
  - destruct ((i <? 0) || (n <? 0) || (zlen m <? i + n)) eqn:E; [discriminate|]. intros [= <-].
    split; [apply octets_at_intro; lia|]. rewrite zlen_firstn; auto. rewrite zlen_skipn; lia.
  - intros [H L]. pose proof (octets_at_bound _ _ _ H). pose proof (zlen_nonneg _ l).
    replace ((i <? 0) || (n <? 0) || (zlen m <? i + n)) with false by lia. f_equal.
    apply (octets_at_det m i); auto; [apply octets_at_intro; lia|].
    rewrite zlen_firstn; auto. rewrite zlen_skipn; lia.
Qed.

Lemma rds_cases : forall m i n,
  (exists l, rds m i n = Ok l /\ 0 <= i /\ 0 <= n /\ i + n <= zlen m)
  \/ (rds m i n = UB OobRead /\ ~ (0 <= i /\ 0 <= n /\ i + n <= zlen m)).
Proof.
  intros m i n. unfold rds. destruct ((i <? 0) || (n <? 0) || (zlen m <? i + n)) eqn:E; [right; split; auto; lia|].
  left; eexists; split; eauto; lia.
Qed.

(** ** push, blit *)
Lemma push_ok : forall cap d b, zlen d + zlen b <= cap -> push cap d b = Ok (d ++ b).
Proof. intros. unfold push. replace (cap <? zlen d + zlen b) with false by lia. reflexivity. Qed.

Lemma push_inv : forall cap d b r, push cap d b = Ok r -> r = d ++ b /\ zlen d + zlen b <= cap.
Proof. unfold push; intros cap d b r. destruct (cap <? zlen d + zlen b) eqn:E; [discriminate|]. intros [= <-]. split; auto; lia. Qed.

Lemma blit_ok : forall a x b y off, zlen a = off -> zlen x = zlen y -> blit (a ++ x ++ b) off y = Ok (a ++ y ++ b).
Proof.
  intros a x b y off H1 H2. unfold blit. pose proof (zlen_nonneg _ a). pose proof (zlen_nonneg _ b). pose proof (zlen_nonneg _ x).
  zl. replace ((off <? 0) || (zlen a + (zlen x + zlen b) <? off + zlen y)) with false by lia.
  rewrite (firstn_app_exact _ a _ off H1). rewrite (app_assoc a x b), (skipn_app_exact _ (a ++ x) b (off + zlen y)); [reflexivity|]. zlia.
Qed.

(** ** take_rd, adv, hd_rd on appended suffixes *)
Lemma take_rd_app : forall a b n, zlen a = n -> take_rd (a ++ b) n = Ok a.
Proof.
  intros a b n H. unfold take_rd. pose proof (zlen_nonneg _ a). pose proof (zlen_nonneg _ b). zl.
  replace ((n <? 0) || (zlen a + zlen b <? n)) with false by lia. rewrite firstn_app_exact; auto.
Qed.
Lemma adv_app : forall a b n, zlen a = n -> adv (a ++ b) n = b.
Proof. intros. unfold adv. apply skipn_app_exact; auto. Qed.

Lemma take_rd_inv : forall p n l, take_rd p n = Ok l -> p = l ++ adv p n /\ zlen l = n.
Proof.
  unfold take_rd, adv. intros p n l. destruct ((n <? 0) || (zlen p <? n)) eqn:E; [discriminate|]. intros [= <-].
  rewrite firstn_skipn. split; auto. apply zlen_firstn. lia.
Qed.

(** ** bind inversion *)
Lemma bind_ok : forall A B (o : outcome A) (k : A -> outcome B) b, bind o k = Ok b <-> exists a, o = Ok a /\ k a = Ok b.
Proof.
  intros A B [a| | |] k b; simpl; split; intros H; try discriminate; try (destruct H as (? & ? & ?); discriminate).
  - eauto.
  - destruct H as (a' & [= <-] & H). auto.
Qed.

Lemma bytes_ok_app : forall a b, bytes_ok (a ++ b) <-> bytes_ok a /\ bytes_ok b.
Proof. intros; unfold bytes_ok; apply Forall_app. Qed.
Lemma bytes_ok_cons : forall a b, bytes_ok (a :: b) <-> is_byte a /\ bytes_ok b.
Proof. intros; unfold bytes_ok; split; [intros H; inversion H; auto|intros [? ?]; auto]. Qed.
Lemma bytes_ok_nil : bytes_ok [].
Proof. constructor. Qed.
Lemma bytes_ok_skipn : forall n l, bytes_ok l -> bytes_ok (skipn n l).
Proof. intros n l H. rewrite <- (firstn_skipn n l) in H. apply bytes_ok_app in H. tauto. Qed.
Lemma bytes_ok_firstn : forall n l, bytes_ok l -> bytes_ok (firstn n l).
Proof. intros n l H. rewrite <- (firstn_skipn n l) in H. apply bytes_ok_app in H. tauto. Qed.

(** ** case folding *)
Lemma dc_spec : forall b, 0 <= b < 256 -> dc b = if (65 <=? b) && (b <=? 90) then b + 32 else b.
Proof.
  intros b H. unfold dc. destruct ((65 <=? b) && (b <=? 90)) eqn:E; auto.
  assert (Hb : 65 <= b <= 90) by lia. clear E H.
  assert (G : forall n, (n <= 25)%nat -> Z.lor (65 + Z.of_nat n) 32 = 65 + Z.of_nat n + 32).
  { intros n Hn. do 26 (destruct n as [|n]; [reflexivity|]). lia. }
  specialize (G (Z.to_nat (b - 65)) ltac:(lia)). replace (65 + Z.of_nat (Z.to_nat (b - 65))) with b in G by lia. exact G.
Qed.
Lemma dc_upper : forall b, 65 <= b <= 90 -> dc b = b + 32.
Proof. intros b H. rewrite dc_spec by lia. replace ((65 <=? b) && (b <=? 90)) with true by lia. auto. Qed.
Lemma dc_other : forall b, ~ (65 <= b <= 90) -> dc b = b.
Proof. intros b H. unfold dc. replace ((65 <=? b) && (b <=? 90)) with false by lia. auto. Qed.
Lemma dc_idem : forall b, dc (dc b) = dc b.
Proof.
  intros b. destruct (Z_le_dec 65 b); [destruct (Z_le_dec b 90)|]; try (rewrite !(dc_other b) by lia; reflexivity).
  rewrite (dc_upper b) by lia. rewrite dc_other; lia.
Qed.
