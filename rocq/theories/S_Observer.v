(** Specification of the interval observer: what a set of possible motions is and how an
    uncertain linear driver moves. *)
From Verif Require Import Prelude M_Lane M_Observer S_Interval.
Open Scope R_scope.

Record motion : Type := Motion { m_pos : vec; m_speed : R; m_heading : R }.

(** A motion within the bounds. *)
Definition possible (i : vinterval) (s : motion) : Prop :=
  fst (fst (vi_pos i)) <= fst (m_pos s) <= fst (snd (vi_pos i)) /\
  snd (fst (vi_pos i)) <= snd (m_pos s) <= snd (snd (vi_pos i)) /\
  fst (vi_speed i) <= m_speed s <= snd (vi_speed i) /\
  fst (vi_heading i) <= m_heading s <= snd (vi_heading i).
Definition possible_front (i : option vinterval) (f : option motion) : Prop :=
  match i, f with None, None => True | Some i, Some f => possible i f | _, _ => False end.

(** One Euler step, of duration [dt], of a driver with acceleration parameters [ta] and
    steering parameters [tb], of desired speed [v0], time and distance gaps, behind [front],
    following a lane of heading [psi_l] to which [lateral] is the deviation; the position
    and the heading are perturbed at a rate of at most 1. *)
Definition drives (acc_max gap_distance gap_time v0 : R) (direction : vec) (lateral : vec -> R) (psi_l : R)
    (front : option motion) (ta tb : list R) (dt : R) (s s' : motion) : Prop :=
  let v := m_speed s in
  let psi := m_heading s in
  let slower := match front with None => 0 | Some f => Rmin (m_speed f - v) 0 end in
  let closer := match front with
                | None => 0
                | Some f => Rmin ((fst (m_pos f) - fst (m_pos s)) * fst direction + (snd (m_pos f) - snd (m_pos s)) * snd direction
                                  - (gap_distance + gap_time * v)) 0
                end in
  let a := entry ta 0 * (v0 - v) + entry ta 1 * slower + entry ta 2 * closer in
  exists wx wy wh, Rabs wx <= 1 /\ Rabs wy <= 1 /\ Rabs wh <= 1 /\
    m_speed s' = v + dt * Rmax (- acc_max) (Rmin a acc_max) /\
    m_heading s' = psi + dt * (- entry tb 0 * (psi - psi_l) + entry tb 1 * (- lateral (m_pos s) / v) + wh) /\
    fst (m_pos s') = fst (m_pos s) + dt * (v * cos psi + wx) /\
    snd (m_pos s') = snd (m_pos s) + dt * (v * sin psi + wy).
