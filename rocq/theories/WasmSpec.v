(** The algorithm codes of the JavaScript interface (wasm.rs documents 0 to 2). *)
From Verif Require Import Base ResizeModel.
Definition algo_code (a : ralgo) : Z := match a with Nearest => 0 | Bilinear => 1 | Lanczos3 => 2 end.
