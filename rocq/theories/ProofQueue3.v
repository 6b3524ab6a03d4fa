(** ProofQueue3.v: single calls without interference, progress, and executable runs of the ring. *)
From Verif Require Import Base Lib ModelQueue SpecQueue ProofQueue ProofQueue2.

(** ** Runs from any configuration *)
Section Steps.
Variables num size : Z.
Lemma run_steps : forall tr tr' c c', run num size tr c -> steps num size c tr' c' -> run num size (tr ++ tr') c'.
Proof.
  intros tr tr' c c' R S. induction S as [|tr' c1 e c2 S IH St]; [rewrite app_nil_r; exact R|]. rewrite app_assoc. eapply run_step; eauto.
Qed.

Definition no_head (b : buffer) : Prop := Forall (fun w : loc * Z => exists i, fst w = LData i) b.
Lemma no_head_drain : forall b m, no_head b -> m_head (drain b m) = m_head m /\ m_tail (drain b m) = m_tail m.
Proof.
  induction b as [|[l v] b IH]; intros m F; [auto|]. inversion F as [|? ? (i & E) F']; subst. cbn [fst] in E. subst l. cbn [drain fold_left]. destruct (IH (store m (LData i, v)) F') as [A B].
  unfold drain in A, B. rewrite A, B. auto.
Qed.

(** An insertion from a quiet configuration, the other thread idle: what it reports. *)
Definition ins_phase (H T : Z) (tr : list event) (c : config) : Prop :=
  q_cons c = CIdle /\ q_cbuf c = [] /\
  match tr with
  | [] => q_prod c = PIdle /\ q_pbuf c = [] /\ m_head (q_mem c) = H /\ m_tail (q_mem c) = T
  | [InsCall it] =>
      match q_prod c with
      | PEnter _ => q_pbuf c = [] /\ m_head (q_mem c) = H /\ m_tail (q_mem c) = T
      | PHead _ h => h = H /\ q_pbuf c = [] /\ m_head (q_mem c) = H /\ m_tail (q_mem c) = T
      | PCopy _ h sp _ => h = H /\ sp = q_space H T num /\ 1 <= sp
      | PRet _ ok sp => sp = q_space H T num - (if ok then 1 else 0) /\ ok = (q_space H T num >=? 1)
      | PIdle => False
      end
  | [InsCall it; InsRet ok s] => s = q_space H T num - (if ok then 1 else 0) /\ ok = (q_space H T num >=? 1)
  | _ => True
  end.
Lemma ins_alone : forall c tr c', quiet c -> steps num size c tr c' -> (exists it, tr = [] \/ tr = [InsCall it] \/ exists ok s, tr = [InsCall it; InsRet ok s]) ->
  ins_phase (m_head (q_mem c)) (m_tail (q_mem c)) tr c'.
Proof.
  intros c tr c' (Q1 & Q2 & Q3 & Q4) S. induction S as [|tr c1 e c2 S IH St]; intros P.
  - split; [auto|]. split; auto.
  - assert (P' : exists it, tr = [] \/ tr = [InsCall it] \/ exists ok s, tr = [InsCall it; InsRet ok s]).
    { destruct P as (it & P). exists it. destruct e as [x|]; [|rewrite app_nil_r in P; exact P]. destruct P as [P|[P|(ok & s & P)]].
      - apply app_eq_nil in P as [_ P]. discriminate.
      - destruct tr as [|y tr]; [auto|]. injection P as _ P. apply app_eq_nil in P as [_ P]. discriminate.
      - destruct tr as [|y [|z tr]]; [auto|injection P as -> P; auto|]. injection P as _ _ P. apply app_eq_nil in P as [_ P]. discriminate. }
    specialize (IH P'). destruct IH as (C1 & C2 & C3). destruct P' as (it0 & P').
    destruct St as [c1 w b E|c1 w b E|c1 it E L|c1 it E|c1 it h E sp|c1 it h sp a k b v E R|c1 it h sp E|c1 it ok sp E|c1 got E L|c1 got E|c1 got h E t cnt|c1 got t cnt a k b E|c1 got t cnt E EB|c1 got t cnt E|c1 res cnt E];
      try congruence;
      try (exfalso; destruct P as (it1 & [P|[P|(ok1 & s1 & P)]]); destruct P' as [-> |[-> |(ok' & s' & ->)]]; discriminate P);
      rewrite ?app_nil_r; split; auto; split; auto.
    + destruct P' as [-> |[-> |(ok & s & ->)]]; cbn [q_prod q_pbuf q_mem] in *; auto.
      * destruct C3 as (_ & B & _). congruence.
      * destruct (q_prod c1); auto; destruct C3; intuition congruence.
    + destruct P' as [-> |[-> |(ok & s & ->)]]; cbn [app set_prod q_prod q_pbuf q_mem] in *; auto; try tauto; rewrite E in C3; contradiction.
    + destruct P' as [-> |[-> |(ok & s & ->)]]; cbn [set_prod q_prod q_pbuf q_mem] in *; auto; rewrite E in C3; [destruct C3; discriminate|].
      destruct C3 as (A & B & D). rewrite A. cbn. auto.
    + destruct P' as [-> |[-> |(ok & s & ->)]]; cbn [set_prod q_prod q_pbuf q_mem] in *; auto; rewrite E in C3; [destruct C3; discriminate|].
      destruct C3 as (-> & B & D & F). unfold sp. rewrite B. cbn [sees drain fold_left load]. rewrite F. set (s := q_space _ _ _). destruct (s >=? 1) eqn:G; [split; auto; split; auto; lia|split; auto; lia].
    + destruct P' as [-> |[-> |(ok & s & ->)]]; cbn [check put_prod set_prod q_prod q_pbuf q_mem] in *; auto; rewrite E in C3; [destruct C3; discriminate|]. auto.
    + destruct P' as [-> |[-> |(ok & s & ->)]]; cbn [put_prod set_prod q_prod q_pbuf q_mem] in *; auto; rewrite E in C3; [destruct C3; discriminate|]. destruct C3 as (-> & -> & F). split; [reflexivity|]. symmetry. lia.
    + destruct P' as [-> |[-> |(ok' & s & ->)]]; cbn [app set_prod q_prod q_pbuf q_mem] in *; auto; rewrite E in C3; first [exact C3|destruct C3; discriminate].
Qed.

(** A removal from a quiet configuration. *)
Definition rem_phase (H T : Z) (tr : list event) (c : config) : Prop :=
  q_prod c = PIdle /\ q_pbuf c = [] /\
  match tr with
  | [] => q_cons c = CIdle /\ q_cbuf c = [] /\ m_head (q_mem c) = H /\ m_tail (q_mem c) = T
  | [RemCall] =>
      match q_cons c with
      | CEnter _ => q_cbuf c = [] /\ m_head (q_mem c) = H /\ m_tail (q_mem c) = T
      | CHead _ h => h = H /\ q_cbuf c = [] /\ m_head (q_mem c) = H /\ m_tail (q_mem c) = T
      | CCopy _ t n _ => n = q_count H T num /\ 1 <= n
      | CFence _ t n => n = q_count H T num /\ 1 <= n
      | CRet (Some _) n => n = q_count H T num - 1 /\ 0 <= n
      | CRet None n => n = q_count H T num /\ n < 1
      | CIdle => False
      end
  | [RemCall; RemRet (Some _) n] => n = q_count H T num - 1 /\ 0 <= n
  | [RemCall; RemRet None n] => n = q_count H T num /\ n < 1
  | _ => True
  end.
Lemma rem_alone : forall c tr c', quiet c -> steps num size c tr c' -> (tr = [] \/ tr = [RemCall] \/ exists res n, tr = [RemCall; RemRet res n]) ->
  rem_phase (m_head (q_mem c)) (m_tail (q_mem c)) tr c'.
Proof.
  intros c tr c' (Q1 & Q2 & Q3 & Q4) S. induction S as [|tr c1 e c2 S IH St]; intros P.
  - split; [auto|]. split; auto.
  - assert (P' : tr = [] \/ tr = [RemCall] \/ exists res n, tr = [RemCall; RemRet res n]).
    { destruct e as [x|]; [|rewrite app_nil_r in P; exact P]. destruct P as [P|[P|(ok & s & P)]].
      - apply app_eq_nil in P as [_ P]. discriminate.
      - destruct tr as [|y tr]; [auto|]. injection P as _ P. apply app_eq_nil in P as [_ P]. discriminate.
      - destruct tr as [|y [|z tr]]; [auto|injection P as -> P; auto|]. injection P as _ _ P. apply app_eq_nil in P as [_ P]. discriminate. }
    specialize (IH P'). destruct IH as (C1 & C2 & C3).
    destruct St as [c1 w b E|c1 w b E|c1 it E L|c1 it E|c1 it h E sp|c1 it h sp a k b v E R|c1 it h sp E|c1 it ok sp E|c1 got E L|c1 got E|c1 got h E t cnt|c1 got t cnt a k b E|c1 got t cnt E EB|c1 got t cnt E|c1 res cnt E];
      try congruence;
      try (exfalso; destruct P as [P|[P|(ok1 & s1 & P)]]; destruct P' as [-> |[-> |(ok' & s' & ->)]]; discriminate P);
      rewrite ?app_nil_r; split; auto; split; auto.
    + destruct P' as [-> |[-> |(r & s & ->)]]; cbn [q_cons q_cbuf q_mem] in *; auto.
      * destruct C3 as (_ & B & _). congruence.
      * destruct (q_cons c1) as [| | | | |[]]; auto; destruct C3; intuition congruence.
    + destruct P' as [-> |[-> |(r & s & ->)]]; cbn [app set_cons q_cons q_cbuf q_mem] in *; auto; try tauto; first [destruct r; exact Logic.I|rewrite E in C3; contradiction].
    + destruct P' as [-> |[-> |(r & s & ->)]]; cbn [set_cons q_cons q_cbuf q_mem] in *; auto; rewrite E in C3; [destruct C3; discriminate|].
      destruct C3 as (A & B & D). rewrite A. cbn. auto.
    + destruct P' as [-> |[-> |(r & s & ->)]]; cbn [set_cons q_cons q_cbuf q_mem] in *; auto; rewrite E in C3; [destruct C3; discriminate|].
      destruct C3 as (-> & B & D & F). unfold cnt, t. rewrite B. cbn [sees drain fold_left load]. rewrite F. set (s := q_count _ _ _). destruct (s >=? 1) eqn:G; split; auto; lia.
    + destruct P' as [-> |[-> |(r & s & ->)]]; cbn [check set_cons q_cons q_cbuf q_mem] in *; auto; rewrite E in C3; [destruct C3; discriminate|]. auto.
    + destruct P' as [-> |[-> |(r & s & ->)]]; cbn [set_cons q_cons q_cbuf q_mem] in *; auto; rewrite E in C3; [destruct C3; discriminate|]. auto.
    + destruct P' as [-> |[-> |(r & s & ->)]]; cbn [put_cons set_cons q_cons q_cbuf q_mem] in *; auto; rewrite E in C3; [destruct C3; discriminate|]. destruct C3 as (-> & F). split; lia.
    + destruct P' as [-> |[-> |(r & s & ->)]]; cbn [app set_cons q_cons q_cbuf q_mem] in *; auto; first [destruct r; exact Logic.I|rewrite E in C3; first [exact C3|destruct C3; discriminate]].
Qed.

Lemma zlen_offsets : zlen (offsets size) = Z.max 0 size.
Proof. unfold offsets, zlen. rewrite map_length, seq_length. lia. Qed.
End Steps.

(** ** Executable runs *)
Inductive choice := PFlush | CFlush | PCall (it : bytes) | PGo | CCall (got : bytes) | CGo.
Section Exec.
Variables num size : Z.
Definition exec1 (ch : choice) (c : config) : option (option event * config) :=
  match ch with
  | PFlush => match q_pbuf c with w :: b => Some (None, {| q_mem := store (q_mem c) w; q_pbuf := b; q_cbuf := q_cbuf c; q_prod := q_prod c; q_cons := q_cons c; q_fault := q_fault c |}) | [] => None end
  | CFlush => match q_cbuf c with w :: b => Some (None, {| q_mem := store (q_mem c) w; q_pbuf := q_pbuf c; q_cbuf := b; q_prod := q_prod c; q_cons := q_cons c; q_fault := q_fault c |}) | [] => None end
  | PCall it => match q_prod c with PIdle => if zlen it =? size then Some (Some (InsCall it), set_prod c (PEnter it)) else None | _ => None end
  | CCall got => match q_cons c with CIdle => if zlen got =? size then Some (Some RemCall, set_cons c (CEnter got)) else None | _ => None end
  | PGo => match q_prod c with
           | PIdle => None
           | PEnter it => Some (None, set_prod c (PHead it (sees (q_pbuf c) (q_mem c) LHead)))
           | PHead it h => let space := q_space h (sees (q_pbuf c) (q_mem c) LTail) num in
               Some (None, set_prod c (if space >=? 1 then PCopy it h space (offsets size) else PRet it false space))
           | PCopy it h sp (k :: b) => match rd it k with
               | Ok v => Some (None, check (put_prod (set_prod c (PCopy it h sp b)) (LData (slot h size + k), v)) (in_data num size (slot h size + k)))
               | _ => None end
           | PCopy it h sp [] => Some (None, put_prod (set_prod c (PRet it true (sp - 1))) (LHead, next h num))
           | PRet it ok sp => Some (Some (InsRet ok sp), set_prod c PIdle)
           end
  | CGo => match q_cons c with
           | CIdle => None
           | CEnter got => Some (None, set_cons c (CHead got (sees (q_cbuf c) (q_mem c) LHead)))
           | CHead got h => let tail := sees (q_cbuf c) (q_mem c) LTail in let count := q_count h tail num in
               Some (None, set_cons c (if count >=? 1 then CCopy got tail count (offsets size) else CRet None count))
           | CCopy got t n (k :: b) => Some (None, check (set_cons c (CCopy (setz got k (sees (q_cbuf c) (q_mem c) (LData (slot t size + k)))) t n b)) (in_data num size (slot t size + k)))
           | CCopy got t n [] => match q_cbuf c with [] => Some (None, set_cons c (CFence got t n)) | _ => None end
           | CFence got t n => Some (None, put_cons (set_cons c (CRet (Some got) (n - 1))) (LTail, next t num))
           | CRet res n => Some (Some (RemRet res n), set_cons c CIdle)
           end
  end.
Lemma exec1_step : forall ch c e c', exec1 ch c = Some (e, c') -> step num size c e c'.
Proof.
  intros ch c e c' E. destruct ch; cbn [exec1] in E.
  - destruct (q_pbuf c) as [|w b] eqn:P; [discriminate|]. injection E as <- <-. apply s_pflush. auto.
  - destruct (q_cbuf c) as [|w b] eqn:P; [discriminate|]. injection E as <- <-. apply s_cflush. auto.
  - destruct (q_prod c) eqn:P; try discriminate. destruct (zlen it =? size) eqn:Zl; [|discriminate]. injection E as <- <-. apply s_pcall; auto. lia.
  - destruct (q_prod c) as [|it|it h|it h sp [|k b]|it ok sp] eqn:P; try discriminate.
    + injection E as <- <-. apply s_phead. auto.
    + injection E as <- <-. eapply s_ptail. eauto.
    + injection E as <- <-. apply s_ppub. auto.
    + destruct (rd it k) eqn:R; try discriminate. injection E as <- <-. eapply (s_pcopy num size c it h sp []); eauto.
    + injection E as <- <-. eapply s_pret. eauto.
  - destruct (q_cons c) eqn:P; try discriminate. destruct (zlen got =? size) eqn:Zl; [|discriminate]. injection E as <- <-. apply s_ccall; auto. lia.
  - destruct (q_cons c) as [|got|got h|got t n [|k b]|got t n|res n] eqn:P; try discriminate.
    + injection E as <- <-. apply s_chead. auto.
    + injection E as <- <-. eapply s_ctail. eauto.
    + destruct (q_cbuf c) eqn:B; [|discriminate]. injection E as <- <-. apply s_cfence; auto.
    + injection E as <- <-. apply (s_ccopy num size c got t n []). auto.
    + injection E as <- <-. apply s_cpub. auto.
    + injection E as <- <-. apply s_cret. auto.
Qed.
Fixpoint exec (chs : list choice) (c : config) : option (list event * config) :=
  match chs with
  | [] => Some ([], c)
  | ch :: chs => match exec1 ch c with
                 | Some (e, c') => match exec chs c' with Some (tr, c2) => Some (match e with Some x => [x] | None => [] end ++ tr, c2) | None => None end
                 | None => None end
  end.
Lemma exec_run : forall chs tr c tr' c', run num size tr c -> exec chs c = Some (tr', c') -> run num size (tr ++ tr') c'.
Proof.
  induction chs as [|ch chs IH]; intros tr c tr' c' R E; cbn [exec] in E; [injection E as <- <-; rewrite app_nil_r; auto|].
  destruct (exec1 ch c) as [[e c1]|] eqn:X; [|discriminate]. destruct (exec chs c1) as [[t c2]|] eqn:Y; [|discriminate]. injection E as <- <-.
  rewrite app_assoc. eapply IH; [|exact Y]. eapply run_step; [exact R|]. eapply exec1_step. eauto.
Qed.
Lemma exec_trace : forall chs tr, match exec chs init with Some (t, _) => t = tr | None => False end -> exists c, run num size tr c.
Proof. intros chs tr E. destruct (exec chs init) as [[t c]|] eqn:X; [|contradiction]. subst. exists c. apply (exec_run chs [] init); auto. constructor. Qed.
End Exec.
