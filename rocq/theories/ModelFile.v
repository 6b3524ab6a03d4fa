(** ModelFile.v: model of wdns/file_load_names.c. *)
From Verif Require Import Base ModelName.

(** The longest prefix of [t] of at most [k] octets that ends at the first newline, if there is one. *)
Fixpoint fgets_take (k : nat) (t : bytes) : bytes * bytes :=
  match k, t with
  | S k, c :: t' => if c =? 10 then ([10], t') else let '(a, r) := fgets_take k t' in (c :: a, r)
  | _, _ => ([], t)
  end.

(** fgets(line, sizeof(line), fp): [t] is what is left of the stream.  NULL at end of file (a read error
    is modelled as end of file); otherwise at most size-1 octets are stored, followed by a NUL. *)
Definition fgets (line : bytes) (t : bytes) : outcome (option (bytes * bytes)) :=
  match t with
  | [] => Ok None
  | _ => let '(a, r) := fgets_take (length line - 1) t in
         line' <- blit line 0 (a ++ [0]) ;; Ok (Some (line', r))
  end.

(** strlen(line): the octets before the first NUL; reading past the array is [UB OobRead]. *)
Fixpoint c_strlen (p : bytes) : outcome Z :=
  match p with
  | [] => UB OobRead
  | c :: p => if c =? 0 then Ok 0 else n <- c_strlen p ;; Ok (n + 1)
  end.

(** wdns/file_load_names.c:31-42, the while loop and the return value.  The result lists the names given to the
    callback, in order, with the return code.  The [line] array (1280 octets) keeps its contents between turns.
    wdns_str_to_name(line) sees the octets of the array after the terminating NUL as accessible. *)
Fixpoint load_loop (fuel : nat) (line t : bytes) : outcome (list (bytes * Z) * res) :=
  match fuel with
  | O => NoFuel
  | S f =>
    got <- fgets line t ;;
    match got with
    | None => Ok ([], res_success)
    | Some (line, t) =>
      c <- rd line 0 ;;
      if (c =? 10) || (c =? 32) || (c =? 35) then load_loop f line t
      else
      n <- c_strlen line ;;
      l <- rd line (n - 1) ;;
      line <- (if l =? 10 then blit line (n - 1) [0] else Ok line) ;;
      n <- c_strlen line ;;
      match str_to_name (firstn (Z.to_nat n) line) (skipn (Z.to_nat (n + 1)) line) with
      | Ok nm => '(nms, r) <- load_loop f line t ;; Ok (nm :: nms, r)
      | Err r => Ok ([], r)
      | UB x => UB x
      | NoFuel => NoFuel
      end
    end
  end.

(** wdns/file_load_names.c:17-43.  [contents] is [None] when fopen fails. *)
Definition file_load_names (contents : option bytes) : outcome (list (bytes * Z) * res) :=
  match contents with
  | None => Ok ([], res_failure)
  | Some t => load_loop (S (length t)) (repeat 0 1280) t
  end.
