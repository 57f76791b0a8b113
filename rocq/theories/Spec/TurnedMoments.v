(** Specification vocabulary for StatMoments of pictures seen from another side. *)
From Coq Require Import Reals List Arith.
From Verif Require Import Lib.PyBase Lib.Fl Spec.Turned Model.StatMoments Model.MomentsRun.

(** The picture seen from another side; its header says the same about the size of the pixels *)
Definition seen_picture (v : view) (p : picture) : picture :=
  mk_picture (rows_seen v (pic_n0 p) (pic_n1 p)) (columns_seen v (pic_n0 p) (pic_n1 p)) (seen v (pic_n0 p) (pic_n1 p) (pic_data p)) (pic_stat p) (pic_grid p).
Definition seen_weights (v : view) (p : picture) (w : option image) : option image := option_map (seen v (pic_n0 p) (pic_n1 p)) w.

(** What two calls leave, on the picture and on the picture seen from another side: the same exception and the same
    moments of the whole picture; and after a call that succeeds the maps are seen from that side and the histograms are the same. *)
Definition same_moments (v : view) (p : picture) (r' r : outcome) : Prop :=
  snd r' = snd r /\ m_whole (fst r') = m_whole (fst r) /\
  (snd r = None ->
    (exists m' m, m_maps (fst r') = Some m' /\ m_maps (fst r) = Some m /\
      forall y x, (y < rows_seen v (pic_n0 p) (pic_n1 p))%nat -> (x < columns_seen v (pic_n0 p) (pic_n1 p))%nat ->
        m' y x = seen v (pic_n0 p) (pic_n1 p) m y x) /\
    m_mean_hist (fst r') = m_mean_hist (fst r) /\ m_variance_hist (fst r') = m_variance_hist (fst r) /\
    m_skewness_hist (fst r') = m_skewness_hist (fst r) /\ m_kurtosis_hist (fst r') = m_kurtosis_hist (fst r)).
