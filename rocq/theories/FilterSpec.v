(** What the steps of an image filter mean, written without graphs. *)
From Coq Require Import ZArith List Bool String.
From Verif Require Import FilterModel.
Import ListNotations.
Open Scope Z_scope.

Section Spec.
Context {F V : Type}.
Variable recip : F -> F.
Variable sizes : V -> list Z.
Variable reshape : V -> list Z -> option V.
Variable constant : ctensor F -> V.
Variable layer : string -> list (string * ctensor F) -> list V -> option V.

(** One step applied to an image [x]. *)
Definition apply (c : call F) (x : V) : option V :=
  match c with
  | ToFloat => layer "to_float" [] [x]
  | Scale f => layer "mul" [] [x; constant (FloatT [1] [f])]
  | SubMean m =>
      layer "sub" [] [x; constant (FloatT [1; 1; 1; Z.of_nat (List.length m)] m)]
  | DivStd d =>
      layer "mul" []
            [x; constant (FloatT [1; 1; 1; Z.of_nat (List.length d)] (map recip d))]
  | Resize w h m =>
      layer "_resize2d" [("type"%string, IntT [1] [m])]
            [x; constant (IntT [4] [-1; h; w; -1])]
  | ResizeShort s m =>
      layer "_nhwc_scale_resize2d"
            [("size"%string, IntT [1] [s]); ("type"%string, IntT [1] [m])] [x]
  | ChannelSwap sh =>
      layer "_dimshuffle"
            [("dim"%string, IntT [1] [3]);
             ("shuffle"%string, IntT [Z.of_nat (List.length sh)] sh)] [x]
  | ToChw => layer "_transpose" [("permute"%string, IntT [4] [0; 3; 1; 2])] [x]
  | CenterCrop w h => layer "_nhwc_center_crop2d" [("size"%string, IntT [2] [w; h])] [x]
  | CenterCropSide s => layer "_nhwc_center_crop2d" [("size"%string, IntT [2] [s; s])] [x]
  | Prewhiten => layer "prewhiten" [] [x]
  | Letterbox w h v m =>
      layer "_nhwc_letterbox"
            [("size"%string, IntT [2] [w; h]); ("type"%string, IntT [1] [m]);
             ("outer_value"%string, FloatT [1] [v])] [x]
  | Divided w h v =>
      layer "divided"
            [("size"%string, IntT [4] [1; h; w; 1]);
             ("padding_value"%string, FloatT [1] [v])] [x]
  | ForceColor => layer "force_color" [] [x]
  | ForceGray => layer "force_gray" [] [x]
  | ForceGrayScale l =>
      layer "force_gray" [("scale"%string, FloatT [Z.of_nat (List.length l)] l)] [x]
  | NormImage e => layer "norm_image" [("epsilon"%string, FloatT [1] [e])] [x]
  end.

(** The steps in order. *)
Fixpoint steps (l : list (call F)) (x : V) : option V :=
  match l with
  | [] => Some x
  | c :: r => match apply c x with Some y => steps r y | None => None end
  end.

(** The calls added since the last clear. *)
Fixpoint added_from (l : list (call F)) (h : list (@event F V)) : list (call F) :=
  match h with
  | [] => l
  | Add c :: r => added_from (l ++ [c]) r
  | Clear :: r => added_from [] r
  | Compile _ :: r => added_from l r
  | Run _ _ :: r => added_from l r
  end.
Definition added (h : list (@event F V)) : list (call F) := added_from [] h.

(** The image as a batch of images with 4 axes: an image of fewer axes is one
    image of the batch with the missing trailing axes of size one; of an image
    with more axes the trailing ones become the channels. *)
Definition four_axes (shape : list Z) : list Z :=
  match List.length shape with
  | 1%nat => 1 :: shape ++ [1; 1]
  | 2%nat => 1 :: shape ++ [1]
  | 3%nat => 1 :: shape
  | _ => firstn 3 shape ++ [fold_right Z.mul 1 (skipn 3 shape)]
  end.

(** What running the pipeline [l] on an image gives. *)
Definition pipeline (l : list (call F)) (image : V) : option V :=
  match l with
  | [] => Some image
  | _ => if (List.length (sizes image) =? 0)%nat then None
         else match reshape image (four_axes (sizes image)) with
              | Some x => steps l x
              | None => None
              end
  end.

End Spec.
