(** The markers inside the entropy-coded data of a scan (ITU-T T.81, B.1.1.3
    and B.2.1): a byte 0xFF followed by a byte other than zero. *)
From Verif Require Import Base JpegSizeSpec.

Fixpoint markers (l : list Z) : list Z :=
  match l with
  | [] => []
  | b :: r =>
      if b =? 255 then
        match r with
        | [] => []
        | m :: r' => if m =? 0 then markers r' else m :: markers r'
        end
      else markers r
  end.
(** what a scan of [n] minimum coded units has to have after every [i] of them
    but the last: RST0, RST1, ..., RST7, RST0, ... *)
Definition restart_markers (n i : Z) : list Z := map (fun k => 208 + Z.of_nat k mod 8) (seq 0 (Z.to_nat (pieces n i - 1))).
