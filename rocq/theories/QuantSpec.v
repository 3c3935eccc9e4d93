(** What is asked of lossy PNG files (reduced palettes), in terms of the
    pixels before and after. *)
From Verif Require Import Base PngPaletteModel PngSpec.

(** one of the four channels of a colour *)
Inductive channel : Type := Red | Green | Blue | Alpha.
Definition channel_of (c : channel) (p : rgba) : Z :=
  let '(r, g, b, a) := p in match c with Red => r | Green => g | Blue => b | Alpha => a end.
Definition is_gray (p : rgba) : Prop := channel_of Red p = channel_of Green p /\ channel_of Green p = channel_of Blue p.
(** no channel differs by more than [m] *)
Definition near (m : Z) (p q : rgba) : Prop := forall c, Z.abs (channel_of c p - channel_of c q) <= m.

(** all the pixels of a picture *)
Definition all_pixels (ct : color_type) (data : list Z) (n : Z) : list rgba :=
  map (fun k => pixel ct data (Z.of_nat k)) (seq 0 (Z.to_nat n)).
(** [D] lists the colours of a picture of [n] pixels, each once *)
Definition colours_are (ct : color_type) (data : list Z) (n : Z) (D : list rgba) : Prop :=
  NoDup D /\ forall c, In c D <-> exists i, 0 <= i < n /\ pixel ct data i = c.
