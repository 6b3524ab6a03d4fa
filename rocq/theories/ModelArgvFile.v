(** ModelArgvFile.v: libmy/argv.c, the arguments read from a file. *)
From Verif Require Import Base ModelFile.

(** argv.c:2215-2217: the octets in front of the first newline or NUL; reading past the array is UB OobRead. *)
Fixpoint punch (p : bytes) : outcome bytes :=
  match p with
  | [] => UB OobRead
  | c :: p => if (c =? 10) || (c =? 0) then Ok [] else s <- punch p ;; Ok (c :: s)
  end.
(** argv.c:2213-2257, the while loop: [line] the array of 1024 octets (FILE_LINE_SIZE, argv_loc.h:77), [t] what is left of the file,
    [args] the arguments so far, [max] the size of the array of pointers. malloc and realloc do not fail. *)
Fixpoint file_loop (fuel : nat) (line t : bytes) (args : list bytes) (max : Z) : outcome (list bytes) :=
  match fuel with
  | O => NoFuel
  | S f =>
    got <- fgets line t ;;
    match got with
    | None => Ok args
    | Some (line, t) =>
      s <- punch line ;;
      line <- blit line (zlen s) [0] ;;
      match s with
      | [] => file_loop f line t args max
      | _ =>
        if zlen args <? max then
          let args := args ++ [s] in
          file_loop f line t args (if zlen args =? max then max + 10 else max)
        else UB OobWrite
      end
    end
  end.
(** argv.c:2164-2260, file_args: the arguments handed to do_list for a file with the octets [t]. *)
Definition file_args (t : bytes) : outcome (list bytes) := file_loop (S (length t)) (repeat 0 1024) t [] 10.
