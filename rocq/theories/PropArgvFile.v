(** PropArgvFile.v: arguments read from a file (libmy/argv.c, C165). *)
From Verif Require Import Base Lib ModelFile SpecFile ProofFile ModelArgvFile.

Fixpoint cut (a : bytes) : bytes := match a with [] => [] | c :: a => if (c =? 10) || (c =? 0) then [] else c :: cut a end.
Lemma punch_cut : forall a z, punch (a ++ 0 :: z) = Ok (cut a).
Proof. induction a as [|c a IH]; intros z; cbn [app punch cut]; [reflexivity|]. destruct (_ || _); [reflexivity|]. rewrite IH. reflexivity. Qed.
Lemma cut_len : forall a, zlen (cut a) <= zlen a.
Proof. induction a as [|c a IH]; cbn [cut]; [lia|]. destruct (_ || _); rewrite ?zlen_cons, ?zlen_nil; pose proof (zlen_nonneg _ a); lia. Qed.
Lemma take_parts : forall k t a r, fgets_take k t = (a, r) -> (length a <= k)%nat /\ length t = (length a + length r)%nat /\ ((0 < k)%nat -> t <> [] -> a <> []).
Proof.
  induction k as [|k IH]; intros t a r E; cbn [fgets_take] in E.
  - assert (a = [] /\ r = t) as [-> ->] by (split; congruence). cbn [length]. split; [lia|]. split; [lia|lia].
  - destruct t as [|c t]; [assert (a = [] /\ r = []) as [-> ->] by (split; congruence); cbn [length]; split; [lia|]; split; [lia|congruence]|].
    destruct (c =? 10); [assert (a = [10] /\ r = t) as [-> ->] by (split; congruence); cbn [length]; split; [lia|]; split; [lia|discriminate]|].
    destruct (fgets_take k t) as [a' r'] eqn:K. assert (a = c :: a' /\ r = r') as [-> ->] by (split; congruence). destruct (IH _ _ _ K) as (A & B & _). cbn [length]. split; [lia|]. split; [lia|discriminate].
Qed.
Lemma blit_len : forall buf off b, 0 <= off < zlen buf -> exists buf', blit buf off [b] = Ok buf' /\ length buf' = length buf.
Proof.
  intros buf off b R. unfold blit. rewrite zlen_cons, zlen_nil. replace (_ || _) with false by lia. eexists. split; [reflexivity|].
  rewrite !app_length, firstn_length, skipn_length. cbn [length]. unfold zlen in R. lia.
Qed.
Fixpoint pieces (fuel : nat) (t : bytes) : list bytes :=
  match fuel, t with
  | S f, _ :: _ => let '(a, r) := fgets_take 1023 t in match cut a with [] => pieces f r | s => s :: pieces f r end
  | _, _ => []
  end.
Lemma loop_pieces : forall fuel line t args max, (length t < fuel)%nat -> length line = 1024%nat -> zlen args < max -> file_loop fuel line t args max = Ok (args ++ pieces fuel t).
Proof.
  induction fuel as [|f IH]; intros line t args max L LL M; [lia|]. cbn [file_loop]. unfold fgets. destruct t as [|c t]; [cbn [bind pieces]; rewrite app_nil_r; reflexivity|].
  rewrite LL. change (1024 - 1)%nat with 1023%nat. cbn [pieces]. destruct (fgets_take 1023 (c :: t)) as [a r] eqn:E. destruct (take_parts _ _ _ _ E) as (A & B & C). assert (N : a <> []) by (apply C; [lia|discriminate]).
  assert (LA : (1 <= length a)%nat) by (destruct a; [congruence|cbn [length]; lia]). assert (ZL : zlen line = 1024) by (unfold zlen; lia).
  rewrite blit_start by (rewrite zlen_app, zlen_cons, zlen_nil; unfold zlen; lia). cbn [bind]. rewrite <- app_assoc. cbn [app]. rewrite punch_cut. cbn [bind].
  set (buf := a ++ 0 :: skipn (length (a ++ [0])) line). assert (BL : length buf = 1024%nat) by (subst buf; rewrite app_length; cbn [length]; rewrite skipn_length, app_length; cbn [length]; lia).
  destruct (blit_len buf (zlen (cut a)) 0) as (buf' & -> & BL'); [pose proof (zlen_nonneg _ (cut a)); pose proof (cut_len a); unfold zlen in *; lia|]. cbn [bind].
  cbn [length] in L, B. destruct (cut a) as [|x s].
  - apply IH; [lia|congruence|exact M].
  - replace (zlen args <? max) with true by lia. rewrite IH; [rewrite <- app_assoc; reflexivity|lia|congruence|]. rewrite zlen_app, zlen_cons, zlen_nil. destruct (_ =? max) eqn:Q; lia.
Qed.
Lemma pieces_nil : forall f, pieces f [] = []. Proof. destruct f; reflexivity. Qed.
(** No file makes it leave the line buffer or the array of arguments, and the loop ends. *)
Theorem C165_safe : forall t, exists args, file_args t = Ok args /\ Forall (fun a => a <> [] /\ zlen a <= 1023) args.
Proof.
  intros t. exists (pieces (S (length t)) t). split; [unfold file_args; rewrite loop_pieces; [reflexivity|lia|apply repeat_length|rewrite zlen_nil; lia]|].
  generalize (S (length t)). intros f. revert t. induction f as [|f IH]; intros t; [constructor|]. destruct t as [|c t]; [constructor|]. cbn [pieces]. destruct (fgets_take 1023 (c :: t)) as [a r] eqn:E. destruct (take_parts _ _ _ _ E) as (A & _ & _).
  pose proof (cut_len a) as CL. destruct (cut a) as [|x s]; [apply IH|]. constructor; [|apply IH]. split; [discriminate|]. unfold zlen in *. lia.
Qed.
Print Assumptions C165_safe.
Lemma cut_line : forall l z, Forall (fun c => c <> 10 /\ c <> 0) l -> cut (l ++ 10 :: z) = l /\ cut l = l.
Proof. intros l z F. induction F as [|c l [H1 H2] F [IH1 IH2]]; [split; reflexivity|]. cbn [app cut]. replace (_ || _) with false by lia. rewrite IH1, IH2. split; reflexivity. Qed.
Lemma no_nl : forall l, Forall (fun c => c <> 10 /\ c <> 0) l -> ~ In 10 l.
Proof. intros l F I. rewrite Forall_forall in F. destruct (F _ I). congruence. Qed.
Definition nonblank (l : bytes) : bool := match l with [] => false | _ => true end.
Lemma pieces_lines : forall t ls, lines_of t ls -> Forall (fun l => zlen l <= 1022 /\ ~ In 0 l) ls -> forall f, (length t < f)%nat -> pieces f t = filter nonblank ls.
Proof.
  intros t ls H. induction H as [|t N I|l t ls I H IH]; intros F f L.
  - apply pieces_nil.
  - destruct f as [|f]; [lia|]. destruct t as [|c t]; [congruence|]. inversion F as [|? ? [B Z0] _]; subst. cbn [pieces]. rewrite fgets_take_last; [|exact I|unfold zlen in B; lia].
    assert (P : Forall (fun c => c <> 10 /\ c <> 0) (c :: t)) by (rewrite Forall_forall; intros x X; split; intros ->; contradiction). rewrite (proj2 (cut_line (c :: t) [] P)), pieces_nil. reflexivity.
  - inversion F as [|? ? [B Z0] F']; subst. destruct f as [|f]; [lia|]. rewrite app_length in L. cbn [length] in L.
    assert (P : Forall (fun c => c <> 10 /\ c <> 0) l) by (rewrite Forall_forall; intros x X; split; intros ->; contradiction).
    assert (E : pieces (S f) (l ++ 10 :: t) = match cut (l ++ [10]) with [] => pieces f t | s => s :: pieces f t end).
    { cbn [pieces]. rewrite fgets_take_line; [|exact I|unfold zlen in B; lia]. destruct l; reflexivity. }
    rewrite E, (proj1 (cut_line l [] P)), (IH F' f) by lia. destruct l; reflexivity.
Qed.
(** ** C165: the arguments in a file are its lines that are not empty, where no line is longer than 1022 octets or has a NUL *)
Theorem C165_lines_partial : forall t ls, lines_of t ls -> Forall (fun l => zlen l <= 1022 /\ ~ In 0 l) ls ->
  file_args t = Ok (filter (fun l => match l with [] => false | _ => true end) ls).
Proof.
  intros t ls H F. unfold file_args. rewrite loop_pieces; [|lia|apply repeat_length|rewrite zlen_nil; lia]. cbn [app]. f_equal. apply (pieces_lines t ls H F). lia.
Qed.
Print Assumptions C165_lines_partial.
Lemma app_inj_len : forall (a b c d : bytes), a ++ b = c ++ d -> length c = length a -> c = a /\ d = b.
Proof. induction a as [|x a IH]; intros b c d E L; destruct c as [|y c]; cbn [length] in L; try lia; [cbn [app] in E; split; congruence|]. cbn [app] in E. assert (x = y /\ a ++ b = c ++ d) as [-> E'] by (split; congruence). destruct (IH _ _ _ E' ltac:(lia)) as [-> ->]. split; reflexivity. Qed.
(** ** C166: without the bound on the lines: a line gives its octets in pieces, all but the last of 1023 octets, in order *)
Inductive chopped : bytes -> list bytes -> Prop :=
| ch_nil : chopped [] []
| ch_end : forall l, l <> [] -> zlen l <= 1022 -> chopped l [l]
| ch_more : forall a l ps, zlen a = 1023 -> chopped l ps -> chopped (a ++ l) (a :: ps).
Lemma pieces_step : forall f t, t <> [] -> pieces (S f) t = let '(a, r) := fgets_take 1023 t in match cut a with [] => pieces f r | s => s :: pieces f r end.
Proof. intros f [|c t] N; [congruence|reflexivity]. Qed.
Lemma pieces_full : forall f a r, length a = 1023%nat -> Forall (fun c => c <> 10 /\ c <> 0) a -> pieces (S f) (a ++ r) = a :: pieces f r.
Proof.
  intros f a r A F. rewrite pieces_step by (destruct a; discriminate). replace 1023%nat with (length a). rewrite fgets_take_full by (apply no_nl; exact F).
  rewrite (proj2 (cut_line a [] F)). destruct a; [discriminate|reflexivity].
Qed.
Lemma long_line : forall n l, (length l <= n)%nat -> Forall (fun c => c <> 10 /\ c <> 0) l -> exists ps, chopped l ps /\
  (forall f, (length l < f)%nat -> pieces f l = ps) /\
  (forall f t, (length (l ++ 10%Z :: t) < f)%nat -> exists f', (length t < f')%nat /\ pieces f (l ++ 10 :: t) = ps ++ pieces f' t).
Proof.
  induction n as [|n IH]; intros l L F.
  - destruct l; [|cbn [length] in L; lia]. exists []. split; [constructor|]. split; [intros; apply pieces_nil|]. intros f t FL. cbn [app length] in FL. destruct f as [|f]; [lia|]. exists f. split; [lia|]. reflexivity.
  - destruct (le_lt_dec (length l) 1022) as [S1|S1].
    + destruct l as [|c l].
      { exists []. split; [constructor|]. split; [intros; apply pieces_nil|]. intros f t FL. cbn [app length] in FL. destruct f as [|f]; [lia|]. exists f. split; [lia|]. reflexivity. }
      exists [c :: l]. split; [apply ch_end; [discriminate|unfold zlen; lia]|]. split.
      * intros f FL. destruct f as [|f]; [lia|]. rewrite pieces_step by discriminate. rewrite fgets_take_last; [|apply no_nl; exact F|lia]. rewrite (proj2 (cut_line _ [] F)), pieces_nil. reflexivity.
      * intros f t FL. destruct f as [|f]; [lia|]. exists f. split; [rewrite app_length in FL; cbn [length] in FL; lia|].
        rewrite pieces_step by discriminate. rewrite fgets_take_line; [|apply no_nl; exact F|lia]. rewrite (proj1 (cut_line _ [] F)). reflexivity.
    + pose proof (firstn_skipn 1023 l) as FS. remember (firstn 1023 l) as a eqn:EA. remember (skipn 1023 l) as r eqn:ER.
      assert (A : length a = 1023%nat) by (subst a; rewrite firstn_length; lia). rewrite <- FS in *. clear EA ER FS. apply Forall_app in F as [FA FR]. rewrite app_length in L.
      destruct (IH r ltac:(lia) FR) as (ps & C & P1 & P2). exists (a :: ps). split; [apply ch_more; [unfold zlen; lia|exact C]|]. split.
      * intros f FL. rewrite app_length in FL. destruct f as [|f]; [lia|]. rewrite pieces_full by assumption. rewrite P1 by lia. reflexivity.
      * intros f t FL. rewrite <- app_assoc in *. rewrite app_length in FL. destruct f as [|f]; [lia|]. rewrite pieces_full by assumption.
        destruct (P2 f t ltac:(lia)) as (f' & G & ->). exists f'. split; [exact G|reflexivity].
Qed.
Theorem C166_lines : forall t ls, lines_of t ls -> Forall (fun l => ~ In 0 l) ls -> exists pss, Forall2 chopped ls pss /\ file_args t = Ok (concat pss).
Proof.
  intros t ls H F.
  assert (G : exists pss, Forall2 chopped ls pss /\ forall f, (length t < f)%nat -> pieces f t = concat pss).
  { induction H as [|t N I|l t ls I H IH].
    - exists []. split; [constructor|]. intros. apply pieces_nil.
    - inversion F as [|? ? Z0 _]; subst. assert (P : Forall (fun c => c <> 10 /\ c <> 0) t) by (rewrite Forall_forall; intros x X; split; intros ->; contradiction).
      destruct (long_line _ t (le_n _) P) as (ps & C & P1 & _). exists [ps]. split; [constructor; [exact C|constructor]|]. intros f L. cbn [concat]. rewrite app_nil_r. apply P1. exact L.
    - inversion F as [|? ? Z0 F']; subst. assert (P : Forall (fun c => c <> 10 /\ c <> 0) l) by (rewrite Forall_forall; intros x X; split; intros ->; contradiction).
      destruct (IH F') as (pss & A & B). destruct (long_line _ l (le_n _) P) as (ps & C & _ & P2). exists (ps :: pss). split; [constructor; assumption|].
      intros f L. destruct (P2 f t L) as (f' & L' & ->). cbn [concat]. rewrite (B f' L'). reflexivity. }
  destruct G as (pss & A & B). exists pss. split; [exact A|]. unfold file_args. rewrite loop_pieces; [|lia|apply repeat_length|rewrite zlen_nil; lia]. cbn [app]. f_equal. apply B. lia.
Qed.
Print Assumptions C166_lines.
(** The pieces of a line are determined by it. *)
Theorem C166_unique : forall l ps qs, chopped l ps -> chopped l qs -> ps = qs.
Proof.
  intros l ps qs H. revert qs. induction H as [|l N L|a l ps A H IH]; intros qs Q.
  - remember [] as z eqn:Ez. destruct Q as [|z N _|b z qs B Q]; [reflexivity|congruence|]. destruct b; [rewrite zlen_nil in B; lia|discriminate].
  - destruct Q as [|z N' _|b z qs B Q]; [congruence|reflexivity|]. rewrite zlen_app in L. pose proof (zlen_nonneg _ z). lia.
  - remember (a ++ l) as z eqn:Ez. destruct Q as [|z N L|b z qs B Q].
    + destruct a; [rewrite zlen_nil in A; lia|discriminate].
    + subst z. rewrite zlen_app in L. pose proof (zlen_nonneg _ l). lia.
    + assert (LE : length a = length b) by (unfold zlen in *; lia). apply app_inj_len in Ez; [|exact LE]. destruct Ez as [-> ->]. f_equal. apply IH. exact Q.
Qed.
Print Assumptions C166_unique.
Example C166_ex : chopped (repeat 120 1023 ++ [121; 122]) [repeat 120 1023; [121; 122]] /\ file_args (repeat 120 1023 ++ [121; 122; 10; 49]) = Ok [repeat 120 1023; [121; 122]; [49]].
Proof. split; [apply ch_more; [vm_compute; reflexivity|apply ch_end; [discriminate|vm_compute; discriminate]]|vm_compute; reflexivity]. Qed.
(** A longer line becomes two arguments. *)
Theorem C165_refuted : forall a b, length a = 1023%nat -> (0 < length b <= 1023)%nat -> Forall (fun c => c <> 10 /\ c <> 0) (a ++ b) -> lines_of (a ++ b) [a ++ b] /\ file_args (a ++ b) = Ok [a; b].
Proof.
  intros a b A B F. pose proof (no_nl _ F) as NN. split; [apply lo_last; [destruct a; [discriminate|discriminate]|exact NN]|]. apply Forall_app in F as [FA FB].
  unfold file_args. rewrite loop_pieces; [|lia|apply repeat_length|rewrite zlen_nil; lia]. cbn [app]. f_equal. rewrite app_length, A.
  assert (E : forall f t, t <> [] -> pieces (S f) t = let '(a, r) := fgets_take 1023 t in match cut a with [] => pieces f r | s => s :: pieces f r end) by (intros f [|c t] N; [congruence|reflexivity]).
  rewrite E by (destruct a; discriminate). rewrite <- A. rewrite fgets_take_full by (apply no_nl; exact FA). rewrite (proj2 (cut_line a [] FA)). destruct a as [|x a]; [discriminate|]. f_equal.
  destruct b as [|y b]; [cbn [length] in B; lia|]. change ((length (x :: a) + length (y :: b))%nat) with (S (length a + length (y :: b))). rewrite E by discriminate. rewrite fgets_take_last; [|apply no_nl; exact FB|lia]. rewrite (proj2 (cut_line (y :: b) [] FB)), pieces_nil. reflexivity.
Qed.
Print Assumptions C165_refuted.
Example C165_ex : file_args [45; 118; 10; 10; 97; 32; 98] = Ok [[45; 118]; [97; 32; 98]] /\ lines_of [45; 118; 10; 10; 97; 32; 98] [[45; 118]; []; [97; 32; 98]].
Proof. split; [vm_compute; reflexivity|]. apply (lo_cons [45; 118] [10; 97; 32; 98]); [intros [H|[H|[]]]; discriminate|]. apply (lo_cons [] [97; 32; 98]); [intros []|]. apply lo_last; [discriminate|intros [H|[H|[H|[]]]]; discriminate]. Qed.
