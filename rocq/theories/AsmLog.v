(** Model of what fpga-as prints to stderr while it reads its input (fpga/assembler.cc). *)
From Verif Require Import Base Fasm FasmLog Assembler.

(** assembler.cc:274-291: the loop over the lines; [fasm::Parse] is called for each of them with
    [stderr], and the loop ends with the first line that is rejected. *)
Fixpoint reading_messages (sm : shift_model) (lines : list text) : outcome (list message) :=
  match lines with
  | [] => Ok []
  | line :: rest =>
      obind (fasm_log sm always true line) (fun st =>
        if (l_result st =? kUserAbort) || (l_result st =? kError) then Ok (l_messages st)
        else omap (fun ms => l_messages st ++ ms) (reading_messages sm rest))
  end.
