(** Scripts of write calls and the matching script of read calls. *)
From Verif Require Import Base BitsModel.

Inductive wop : Type :=
| WBits (value width : Z)      (* write_bits(value, width) / read_bits(width) *)
| WAlign.                      (* flush() / align_to_byte() *)

Definition wop_ok (max : Z) (o : wop) : Prop :=
  match o with WBits _ n => 0 <= n <= max | WAlign => True end.

(** What a reader must see: the low [width] bits of every written value. *)
Fixpoint script_values (ops : list wop) : list Z :=
  match ops with
  | [] => []
  | WBits v n :: r => v mod 2 ^ n :: script_values r
  | WAlign :: r => script_values r
  end.

Definition bw_step (w : bw) (o : wop) : bw :=
  match o with WBits v n => bw_write_bits w v n | WAlign => bw_flush w end.
Definition b64_step (w : bw64) (o : wop) : bw64 :=
  match o with WBits v n => b64_write w v n | WAlign => b64_flush w end.
Definition bw_script (ops : list wop) : list Z := bw_finish (fold_left bw_step ops bw_new).
Definition b64_script (ops : list wop) : list Z := b64_finish (fold_left b64_step ops b64_new).

Fixpoint br_script (r : br) (ops : list wop) : res (list Z) :=
  match ops with
  | [] => Ok []
  | WBits _ n :: t =>
      let* (v, r) := br_read r n in
      let* vs := br_script r t in
      Ok (v :: vs)
  | WAlign :: t => br_script (br_align r) t
  end.
