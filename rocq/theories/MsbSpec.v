(** Specification of the JPEG entropy-coded byte stream (ITU-T T.81, B.1.1.5
    and F.1.2.3): bits are packed most significant bit first and a zero byte
    follows every byte 0xFF. *)
From Verif Require Import Base BitsModel BitsSpec.

(** the [n] low bits of [v], most significant first *)
Definition msb (n v : Z) : list bool := rev (bits_of (Z.to_nat n) v).
Definition bytes_msb (l : list Z) : list bool := flat_map (msb 8) l.

(** remove the stuffed zero bytes; [None] if a byte 0xFF is not followed by zero *)
Fixpoint unstuff (l : list Z) : option (list Z) :=
  match l with
  | [] => Some []
  | b :: r =>
      if b =? 255 then
        match r with
        | z :: r' => if z =? 0 then option_map (cons 255) (unstuff r') else None
        | [] => None
        end
      else option_map (cons b) (unstuff r)
  end.

(** no marker anywhere: every 0xFF is followed by a zero byte *)
Definition stuffed (l : list Z) : Prop :=
  forall i, nth_error l i = Some 255 -> nth_error l (S i) = Some 0.

(** ones up to the next multiple of eight *)
Definition pad_ones (l : list bool) : list bool := l ++ repeat true ((8 - length l mod 8) mod 8).
(** the bits a script of writes and flushes stands for *)
Fixpoint script_bits (acc : list bool) (ops : list wop) : list bool :=
  match ops with
  | [] => acc
  | WBits v n :: t => script_bits (acc ++ msb n v) t
  | WAlign :: t => script_bits (pad_ones acc) t
  end.

Definition m_step (w : bwm) (o : wop) : bwm :=
  match o with WBits v n => m_write w v n | WAlign => m_flush w end.
Definition m_script (ops : list wop) : list Z := m_finish (fold_left m_step ops m_new).

(** reading a list of fields with MsbBitReader *)
Fixpoint mr_script (r : mr) (ops : list (Z * Z)) : res (list Z) :=
  match ops with
  | [] => Ok []
  | (_, n) :: t =>
      match mr_read r n with
      | (Ok v, r) => let* vs := mr_script r t in Ok (v :: vs)
      | (Err e, _) => Err e
      | (Panic, _) => Panic
      | (NoFuel, _) => NoFuel
      end
  end.
