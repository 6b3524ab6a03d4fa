(** PropRead.v: C54: reading rdata text without undefined behaviour. Spec: SpecText.v ([text_safe]). *)
From Coq Require Strings.String.
From Verif Require Import Base Lib SpecName SpecMessage SpecFormat SpecTables SpecText Libc ModelName ModelFormat ModelTables ModelDescr ModelRRset ModelFromStr.
From Verif Require Import ProofField ProofVisible ProofRdataText ProofFromStr ProofRoundTrip ProofFromSafe.

(** ** C54: no read behind the text, no uninitialised value, and the function returns. *)

(** For every text, type and class; missing: texts that are not [text_safe] (below: why they must be excluded). *)
Theorem C54_safe_partial : forall s t c, SpecName.c_string s -> text_safe t s -> (exists l, str_to_rdata s t c = Ok l) \/ (exists e, str_to_rdata s t c = Err e).
Proof. intros s t c C T. pose proof (str_to_rdata_fin s t c C T) as F. destruct (str_to_rdata s t c); cbn in F; [eauto|eauto|contradiction|contradiction]. Qed.
Print Assumptions C54_safe_partial.

(** Types whose text has none of these fields: every text is safe. *)
Definition plain_types : list Z := [1; 13; 16; 19; 20; 28; 62; 99; 108; 109; 256; 257].
Theorem C54_plain_types : forall s t c, SpecName.c_string s -> In t plain_types -> (exists l, str_to_rdata s t c = Ok l) \/ (exists e, str_to_rdata s t c = Err e).
Proof.
  intros s t c C I. apply C54_safe_partial; auto. cbn in I.
  repeat (destruct I as [<-|I]; [split; [|split; [|split]]; vm_compute; intuition discriminate|]). contradiction.
Qed.
Print Assumptions C54_plain_types.

(** Hexadecimal text followed by two blanks: the "%02hhx" conversion reports EOF, which is not noticed, and the octet variable
    is used uninitialised; for every text of the NULL type. *)
Theorem C54_trailing_blanks_refuted : forall l s w w' c, l <> [] -> hex_text true l s -> white w -> white w' -> str_to_rdata (s ++ [w; w']) 10 c = UB Uninit.
Proof.
  intros l s w w' c N H W W'.
  assert (IW : isspace w = true) by (unfold isspace, white in *; lia). assert (IW' : isspace w' = true) by (unfold isspace, white in *; lia).
  assert (G : forall l s, hex_text true l s -> forall f, (length s + 2 < f)%nat -> hex_pairs f (s ++ [w; w']) = UB Uninit).
  { clear - IW IW'. induction 1 as [|b h l s HO HT IH]; intros f L.
    - destruct f as [|f]; [lia|]. cbn [app hex_pairs]. unfold scan_octet, scan_hh. cbn [skip_space]. rewrite IW, IW'. reflexivity.
    - destruct (hex_scan true b h (s ++ [w; w']) HO) as (x & y & -> & E). destruct f as [|f]; [cbn [length app] in L; lia|]. cbn [app hex_pairs]. rewrite E. cbn [bind].
      rewrite IH; [reflexivity|]. cbn [length app] in L. lia. }
  unfold str_to_rdata. change (lookup_descr 10) with (Some {| d_class := class_un; d_types := [rdf_bytes] |}). cbn [d_class d_types]. change (negb _) with false. cbv iota. cbn [parse_text_fields].
  assert (SK : exists d r, skip_space (s ++ [w; w']) = d :: r /\ d :: r = s ++ [w; w']).
  { inversion H; subst; [congruence|]. destruct H0 as (x & y & vx & vy & -> & X & Y & _). exists x, (y :: s0 ++ [w; w']). cbn [app skip_space].
    replace (isspace x) with false; [auto|]. symmetry. apply white_isspace. unfold white. inversion X; lia. }
  destruct SK as (d & r & -> & E). cbn [parse_text_field]. rewrite E. rewrite (G l s H); [reflexivity|rewrite app_length; cbn [length]; lia].
Qed.
Print Assumptions C54_trailing_blanks_refuted.

(** Each condition of [text_safe] is needed. *)
Theorem C54_conditions_refuted :
  str_to_rdata (lit "a\") 2 1 = UB OobRead /\                       (* a name that ends in a backslash *)
  str_to_rdata (lit "10 a\ ") 15 1 = UB OobRead /\
  str_to_rdata (lit "\# ") 65280 1 = UB Uninit /\                   (* generic text without a length *)
  str_to_rdata (lit "1 0 0 a" ++ [11; 11; 11]) 51 1 = UB Uninit /\  (* a salt with vertical tabs *)
  str_to_rdata (lit "1 2 3 {") 48 1 = UB OobRead /\                 (* '{' in base64 *)
  str_to_rdata (lit "1 . ech={") 64 1 = UB OobRead /\ str_to_rdata (lit "1 . ech=\123") 64 1 = UB OobRead.
Proof. repeat split; vm_compute; reflexivity. Qed.
Print Assumptions C54_conditions_refuted.
Example C54_ex : text_safe 15 (lit "10 mx\.a.example.") /\ str_to_rdata (lit "10 mx\.a.example.") 15 1 = Ok ([0; 10; 4] ++ lit "mx.a" ++ [7] ++ lit "example" ++ [0]) /\
  str_to_rdata (lit "1 2 3 zz") 48 1 = Ok [0; 1; 2; 3; 207] /\ In 16 plain_types /\ str_to_rdata (lit "ab \065{") 16 1 = Ok [2; 97; 98; 2; 65; 123].
Proof.
  split; [|split; [|split; [|split]]; vm_compute; auto].
  split; [|split; [|split]]; [|vm_compute; intuition discriminate..].
  intros _ a b E. let l := eval vm_compute in (lit "10 mx\.a.example.") in change (lit "10 mx\.a.example.") with l in E.
  do 17 (destruct a as [|? a]; [cbn [app] in E; first [discriminate E|injection E as <-; eexists _, _; split; [reflexivity|lia]]|apply (f_equal (@tl Z)) in E; cbn [tl app] in E]). destruct a; discriminate E.
Qed.
