(** Model of the shortcuts for box(): overlay(), fbox(), sbox(). *)
From Coq Require Import List ZArith NArith QArith Bool String.
From Verif Require Import Py ShowModel LayoutModel SlideModel ListModel.
Import ListNotations.

(** [kwargs.setdefault(name, value)]. *)
Definition setdefault (k : kwarg) (d : list kwarg) : list kwarg :=
  if has_key (key k) d then d else d ++ [k].
(** [self.box( **kwargs)] on the object [r]. *)
Definition box_kw (s : slide) (r : nat) (d : list kwarg) : slide * result nat :=
  match call_args [] d with
  | Err e => (s, Err e)
  | Ok a => box_call s r a
  end.
(** boxmixin.py:163-173. *)
Definition overlay_kw (d : list kwarg) : list kwarg :=
  setdefault (Kheight (AStr (pys "100%"))) (setdefault (Kwidth (AStr (pys "100%")))
    (setdefault (Ky (ANum 0)) (setdefault (Kx (ANum 0)) d))).
Definition overlay (s : slide) (r : nat) (d : list kwarg) : slide * result nat := box_kw s r (overlay_kw d).
(** boxmixin.py:175-183. *)
Definition fbox_kw (d : list kwarg) : list kwarg :=
  setdefault (Kheight (AStr (pys "fill"))) (setdefault (Kwidth (AStr (pys "fill"))) d).
Definition fbox (s : slide) (r : nat) (d : list kwarg) : slide * result nat := box_kw s r (fbox_kw d).
(** boxmixin.py:185-196. *)
Definition sbox_kw (horizontal : bool) (d : list kwarg) : list kwarg :=
  setdefault (if horizontal then Kheight (AStr (pys "fill")) else Kwidth (AStr (pys "fill"))) d.
Definition sbox (s : slide) (r : nat) (d : list kwarg) : slide * result nat :=
  match get_box r (sl_box s) with
  | None => (s, Err EAttribute)
  | Some (b, _) =>
      match get_layout (b_id b) (sl_layout s) with
      | None => (s, Err EAttribute)
      | Some l => box_kw s r (sbox_kw (l_horizontal (head l)) d)
      end
  end.
