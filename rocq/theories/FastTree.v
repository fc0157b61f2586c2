(** The two generated decision trees of src/fast/fast_9.c, translated token by
    token: [TG k t e] is "if (p[pixel[k]] > cb) t else e", [TL k t e] is
    "if (p[pixel[k]] < c_b) t else e", [TY] is "is a corner" and [TN] "is not". *)
From Verif Require Import Base.

Inductive dtree := TY | TN | TG (k : nat) (t e : dtree) | TL (k : nat) (t e : dtree).

(** fast9_corner_score, src/fast/fast_9.c:51-2952. *)
Definition score_tree : dtree :=
 TG 0
  (TG 1
   (TG 2
    (TG 3
     (TG 4
      (TG 5
       (TG 6
        (TG 7
         (TG 8 TY (TG 15 TY TN))
         (TL 7
          (TG 14
           (TG 15 TY TN)
           (TL 14 (TL 8 (TL 9 (TL 10 (TL 11 (TL 12 (TL 13 (TL 15 TY TN) TN) TN) TN) TN) TN) TN) TN))
          (TG 14 (TG 15 TY TN) TN)))
        (TL 6
         (TG 15
          (TG 13
           (TG 14 TY TN)
           (TL 13 (TL 7 (TL 8 (TL 9 (TL 10 (TL 11 (TL 12 (TL 14 TY TN) TN) TN) TN) TN) TN) TN) TN))
          (TL 7 (TL 8 (TL 9 (TL 10 (TL 11 (TL 12 (TL 13 (TL 14 TY TN) TN) TN) TN) TN) TN) TN) TN))
         (TG 13
          (TG 14 (TG 15 TY TN) TN)
          (TL 13
           (TL 7 (TL 8 (TL 9 (TL 10 (TL 11 (TL 12 (TL 14 (TL 15 TY TN) TN) TN) TN) TN) TN) TN) TN)
           TN))))
       (TL 5
        (TG 14
         (TG 12
          (TG 13 (TG 15 TY (TG 6 (TG 7 (TG 8 (TG 9 (TG 10 (TG 11 TY TN) TN) TN) TN) TN) TN)) TN)
          (TL 12 (TL 6 (TL 7 (TL 8 (TL 9 (TL 10 (TL 11 (TL 13 TY TN) TN) TN) TN) TN) TN) TN) TN))
         (TL 14
          (TL 7
           (TL 8 (TL 9 (TL 10 (TL 11 (TL 12 (TL 13 (TL 6 TY (TL 15 TY TN)) TN) TN) TN) TN) TN) TN)
           TN)
          (TL 6 (TL 7 (TL 8 (TL 9 (TL 10 (TL 11 (TL 12 (TL 13 TY TN) TN) TN) TN) TN) TN) TN) TN)))
        (TG 12
         (TG 13
          (TG 14 (TG 15 TY (TG 6 (TG 7 (TG 8 (TG 9 (TG 10 (TG 11 TY TN) TN) TN) TN) TN) TN)) TN)
          TN)
         (TL 12
          (TL 7
           (TL 8 (TL 9 (TL 10 (TL 11 (TL 13 (TL 14 (TL 6 TY (TL 15 TY TN)) TN) TN) TN) TN) TN) TN)
           TN)
          TN))))
      (TL 4
       (TG 13
        (TG 11
         (TG 12
          (TG 14
           (TG 15 TY (TG 6 (TG 7 (TG 8 (TG 9 (TG 10 TY TN) TN) TN) TN) TN))
           (TG 5 (TG 6 (TG 7 (TG 8 (TG 9 (TG 10 TY TN) TN) TN) TN) TN) TN))
          TN)
         (TL 11 (TL 5 (TL 6 (TL 7 (TL 8 (TL 9 (TL 10 (TL 12 TY TN) TN) TN) TN) TN) TN) TN) TN))
        (TL 13
         (TL 7
          (TL 8
           (TL 9
            (TL 10 (TL 11 (TL 12 (TL 6 (TL 5 TY (TL 14 TY TN)) (TL 14 (TL 15 TY TN) TN)) TN) TN) TN)
            TN)
           TN)
          TN)
         (TL 5 (TL 6 (TL 7 (TL 8 (TL 9 (TL 10 (TL 11 (TL 12 TY TN) TN) TN) TN) TN) TN) TN) TN)))
       (TG 11
        (TG 12
         (TG 13
          (TG 14
           (TG 15 TY (TG 6 (TG 7 (TG 8 (TG 9 (TG 10 TY TN) TN) TN) TN) TN))
           (TG 5 (TG 6 (TG 7 (TG 8 (TG 9 (TG 10 TY TN) TN) TN) TN) TN) TN))
          TN)
         TN)
        (TL 11
         (TL 7
          (TL 8
           (TL 9
            (TL 10 (TL 12 (TL 13 (TL 6 (TL 5 TY (TL 14 TY TN)) (TL 14 (TL 15 TY TN) TN)) TN) TN) TN)
            TN)
           TN)
          TN)
         TN))))
     (TL 3
      (TG 10
       (TG 11
        (TG 12
         (TG 13
          (TG 14
           (TG 15 TY (TG 6 (TG 7 (TG 8 (TG 9 TY TN) TN) TN) TN))
           (TG 5 (TG 6 (TG 7 (TG 8 (TG 9 TY TN) TN) TN) TN) TN))
          (TG 4 (TG 5 (TG 6 (TG 7 (TG 8 (TG 9 TY TN) TN) TN) TN) TN) TN))
         TN)
        TN)
       (TL 10
        (TL 7
         (TL 8
          (TL 9
           (TL 11
            (TL 6
             (TL 5 (TL 4 TY (TL 12 (TL 13 TY TN) TN)) (TL 12 (TL 13 (TL 14 TY TN) TN) TN))
             (TL 12 (TL 13 (TL 14 (TL 15 TY TN) TN) TN) TN))
            TN)
           TN)
          TN)
         TN)
        TN))
      (TG 10
       (TG 11
        (TG 12
         (TG 13
          (TG 14
           (TG 15 TY (TG 6 (TG 7 (TG 8 (TG 9 TY TN) TN) TN) TN))
           (TG 5 (TG 6 (TG 7 (TG 8 (TG 9 TY TN) TN) TN) TN) TN))
          (TG 4 (TG 5 (TG 6 (TG 7 (TG 8 (TG 9 TY TN) TN) TN) TN) TN) TN))
         TN)
        TN)
       (TL 10
        (TL 7
         (TL 8
          (TL 9
           (TL 11
            (TL 12
             (TL 6
              (TL 5 (TL 4 TY (TL 13 TY TN)) (TL 13 (TL 14 TY TN) TN))
              (TL 13 (TL 14 (TL 15 TY TN) TN) TN))
             TN)
            TN)
           TN)
          TN)
         TN)
        TN))))
    (TL 2
     (TG 9
      (TG 10
       (TG 11
        (TG 12
         (TG 13
          (TG 14
           (TG 15 TY (TG 6 (TG 7 (TG 8 TY TN) TN) TN))
           (TG 5 (TG 6 (TG 7 (TG 8 TY TN) TN) TN) TN))
          (TG 4 (TG 5 (TG 6 (TG 7 (TG 8 TY TN) TN) TN) TN) TN))
         (TG 3 (TG 4 (TG 5 (TG 6 (TG 7 (TG 8 TY TN) TN) TN) TN) TN) TN))
        TN)
       TN)
      (TL 9
       (TL 7
        (TL 8
         (TL 10
          (TL 6
           (TL 5
            (TL 4 (TL 3 TY (TL 11 (TL 12 TY TN) TN)) (TL 11 (TL 12 (TL 13 TY TN) TN) TN))
            (TL 11 (TL 12 (TL 13 (TL 14 TY TN) TN) TN) TN))
           (TL 11 (TL 12 (TL 13 (TL 14 (TL 15 TY TN) TN) TN) TN) TN))
          TN)
         TN)
        TN)
       TN))
     (TG 9
      (TG 10
       (TG 11
        (TG 12
         (TG 13
          (TG 14
           (TG 15 TY (TG 6 (TG 7 (TG 8 TY TN) TN) TN))
           (TG 5 (TG 6 (TG 7 (TG 8 TY TN) TN) TN) TN))
          (TG 4 (TG 5 (TG 6 (TG 7 (TG 8 TY TN) TN) TN) TN) TN))
         (TG 3 (TG 4 (TG 5 (TG 6 (TG 7 (TG 8 TY TN) TN) TN) TN) TN) TN))
        TN)
       TN)
      (TL 9
       (TL 7
        (TL 8
         (TL 10
          (TL 11
           (TL 6
            (TL 5
             (TL 4 (TL 3 TY (TL 12 TY TN)) (TL 12 (TL 13 TY TN) TN))
             (TL 12 (TL 13 (TL 14 TY TN) TN) TN))
            (TL 12 (TL 13 (TL 14 (TL 15 TY TN) TN) TN) TN))
           TN)
          TN)
         TN)
        TN)
       TN))))
   (TL 1
    (TG 8
     (TG 9
      (TG 10
       (TG 11
        (TG 12
         (TG 13
          (TG 14 (TG 15 TY (TG 6 (TG 7 TY TN) TN)) (TG 5 (TG 6 (TG 7 TY TN) TN) TN))
          (TG 4 (TG 5 (TG 6 (TG 7 TY TN) TN) TN) TN))
         (TG 3 (TG 4 (TG 5 (TG 6 (TG 7 TY TN) TN) TN) TN) TN))
        (TG 2 (TG 3 (TG 4 (TG 5 (TG 6 (TG 7 TY TN) TN) TN) TN) TN) TN))
       TN)
      TN)
     (TL 8
      (TL 7
       (TL 9
        (TL 6
         (TL 5
          (TL 4
           (TL 3 (TL 2 TY (TL 10 (TL 11 TY TN) TN)) (TL 10 (TL 11 (TL 12 TY TN) TN) TN))
           (TL 10 (TL 11 (TL 12 (TL 13 TY TN) TN) TN) TN))
          (TL 10 (TL 11 (TL 12 (TL 13 (TL 14 TY TN) TN) TN) TN) TN))
         (TL 10 (TL 11 (TL 12 (TL 13 (TL 14 (TL 15 TY TN) TN) TN) TN) TN) TN))
        TN)
       TN)
      TN))
    (TG 8
     (TG 9
      (TG 10
       (TG 11
        (TG 12
         (TG 13
          (TG 14 (TG 15 TY (TG 6 (TG 7 TY TN) TN)) (TG 5 (TG 6 (TG 7 TY TN) TN) TN))
          (TG 4 (TG 5 (TG 6 (TG 7 TY TN) TN) TN) TN))
         (TG 3 (TG 4 (TG 5 (TG 6 (TG 7 TY TN) TN) TN) TN) TN))
        (TG 2 (TG 3 (TG 4 (TG 5 (TG 6 (TG 7 TY TN) TN) TN) TN) TN) TN))
       TN)
      TN)
     (TL 8
      (TL 7
       (TL 9
        (TL 10
         (TL 6
          (TL 5
           (TL 4
            (TL 3 (TL 2 TY (TL 11 TY TN)) (TL 11 (TL 12 TY TN) TN))
            (TL 11 (TL 12 (TL 13 TY TN) TN) TN))
           (TL 11 (TL 12 (TL 13 (TL 14 TY TN) TN) TN) TN))
          (TL 11 (TL 12 (TL 13 (TL 14 (TL 15 TY TN) TN) TN) TN) TN))
         TN)
        TN)
       TN)
      TN))))
  (TL 0
   (TG 1
    (TG 8
     (TG 7
      (TG 9
       (TG 6
        (TG 5
         (TG 4
          (TG 3 (TG 2 TY (TG 10 (TG 11 TY TN) TN)) (TG 10 (TG 11 (TG 12 TY TN) TN) TN))
          (TG 10 (TG 11 (TG 12 (TG 13 TY TN) TN) TN) TN))
         (TG 10 (TG 11 (TG 12 (TG 13 (TG 14 TY TN) TN) TN) TN) TN))
        (TG 10 (TG 11 (TG 12 (TG 13 (TG 14 (TG 15 TY TN) TN) TN) TN) TN) TN))
       TN)
      TN)
     (TL 8
      (TL 9
       (TL 10
        (TL 11
         (TL 12
          (TL 13
           (TL 14 (TL 15 TY (TL 6 (TL 7 TY TN) TN)) (TL 5 (TL 6 (TL 7 TY TN) TN) TN))
           (TL 4 (TL 5 (TL 6 (TL 7 TY TN) TN) TN) TN))
          (TL 3 (TL 4 (TL 5 (TL 6 (TL 7 TY TN) TN) TN) TN) TN))
         (TL 2 (TL 3 (TL 4 (TL 5 (TL 6 (TL 7 TY TN) TN) TN) TN) TN) TN))
        TN)
       TN)
      TN))
    (TL 1
     (TG 2
      (TG 9
       (TG 7
        (TG 8
         (TG 10
          (TG 6
           (TG 5
            (TG 4 (TG 3 TY (TG 11 (TG 12 TY TN) TN)) (TG 11 (TG 12 (TG 13 TY TN) TN) TN))
            (TG 11 (TG 12 (TG 13 (TG 14 TY TN) TN) TN) TN))
           (TG 11 (TG 12 (TG 13 (TG 14 (TG 15 TY TN) TN) TN) TN) TN))
          TN)
         TN)
        TN)
       (TL 9
        (TL 10
         (TL 11
          (TL 12
           (TL 13
            (TL 14
             (TL 15 TY (TL 6 (TL 7 (TL 8 TY TN) TN) TN))
             (TL 5 (TL 6 (TL 7 (TL 8 TY TN) TN) TN) TN))
            (TL 4 (TL 5 (TL 6 (TL 7 (TL 8 TY TN) TN) TN) TN) TN))
           (TL 3 (TL 4 (TL 5 (TL 6 (TL 7 (TL 8 TY TN) TN) TN) TN) TN) TN))
          TN)
         TN)
        TN))
      (TL 2
       (TG 3
        (TG 10
         (TG 7
          (TG 8
           (TG 9
            (TG 11
             (TG 6
              (TG 5 (TG 4 TY (TG 12 (TG 13 TY TN) TN)) (TG 12 (TG 13 (TG 14 TY TN) TN) TN))
              (TG 12 (TG 13 (TG 14 (TG 15 TY TN) TN) TN) TN))
             TN)
            TN)
           TN)
          TN)
         (TL 10
          (TL 11
           (TL 12
            (TL 13
             (TL 14
              (TL 15 TY (TL 6 (TL 7 (TL 8 (TL 9 TY TN) TN) TN) TN))
              (TL 5 (TL 6 (TL 7 (TL 8 (TL 9 TY TN) TN) TN) TN) TN))
             (TL 4 (TL 5 (TL 6 (TL 7 (TL 8 (TL 9 TY TN) TN) TN) TN) TN) TN))
            TN)
           TN)
          TN))
        (TL 3
         (TG 4
          (TG 13
           (TG 7
            (TG 8
             (TG 9
              (TG 10 (TG 11 (TG 12 (TG 6 (TG 5 TY (TG 14 TY TN)) (TG 14 (TG 15 TY TN) TN)) TN) TN) TN)
              TN)
             TN)
            TN)
           (TL 13
            (TG 11
             (TG 5 (TG 6 (TG 7 (TG 8 (TG 9 (TG 10 (TG 12 TY TN) TN) TN) TN) TN) TN) TN)
             (TL 11
              (TL 12
               (TL 14
                (TL 15 TY (TL 6 (TL 7 (TL 8 (TL 9 (TL 10 TY TN) TN) TN) TN) TN))
                (TL 5 (TL 6 (TL 7 (TL 8 (TL 9 (TL 10 TY TN) TN) TN) TN) TN) TN))
               TN)
              TN))
            (TG 5 (TG 6 (TG 7 (TG 8 (TG 9 (TG 10 (TG 11 (TG 12 TY TN) TN) TN) TN) TN) TN) TN) TN)))
          (TL 4
           (TG 5
            (TG 14
             (TG 7
              (TG 8 (TG 9 (TG 10 (TG 11 (TG 12 (TG 13 (TG 6 TY (TG 15 TY TN)) TN) TN) TN) TN) TN) TN)
              TN)
             (TL 14
              (TG 12
               (TG 6 (TG 7 (TG 8 (TG 9 (TG 10 (TG 11 (TG 13 TY TN) TN) TN) TN) TN) TN) TN)
               (TL 12
                (TL 13 (TL 15 TY (TL 6 (TL 7 (TL 8 (TL 9 (TL 10 (TL 11 TY TN) TN) TN) TN) TN) TN)) TN)
                TN))
              (TG 6 (TG 7 (TG 8 (TG 9 (TG 10 (TG 11 (TG 12 (TG 13 TY TN) TN) TN) TN) TN) TN) TN) TN)))
            (TL 5
             (TG 6
              (TL 15
               (TG 13
                (TG 7 (TG 8 (TG 9 (TG 10 (TG 11 (TG 12 (TG 14 TY TN) TN) TN) TN) TN) TN) TN)
                (TL 13 (TL 14 TY TN) TN))
               (TG 7 (TG 8 (TG 9 (TG 10 (TG 11 (TG 12 (TG 13 (TG 14 TY TN) TN) TN) TN) TN) TN) TN) TN))
              (TL 6
               (TG 7
                (TG 14
                 (TG 8 (TG 9 (TG 10 (TG 11 (TG 12 (TG 13 (TG 15 TY TN) TN) TN) TN) TN) TN) TN)
                 (TL 14 (TL 15 TY TN) TN))
                (TL 7 (TL 8 TY (TL 15 TY TN)) (TL 14 (TL 15 TY TN) TN)))
               (TG 13
                (TG 7 (TG 8 (TG 9 (TG 10 (TG 11 (TG 12 (TG 14 (TG 15 TY TN) TN) TN) TN) TN) TN) TN) TN)
                (TL 13 (TL 14 (TL 15 TY TN) TN) TN))))
             (TG 12
              (TG 7
               (TG 8 (TG 9 (TG 10 (TG 11 (TG 13 (TG 14 (TG 6 TY (TG 15 TY TN)) TN) TN) TN) TN) TN) TN)
               TN)
              (TL 12
               (TL 13
                (TL 14 (TL 15 TY (TL 6 (TL 7 (TL 8 (TL 9 (TL 10 (TL 11 TY TN) TN) TN) TN) TN) TN)) TN)
                TN)
               TN))))
           (TG 11
            (TG 7
             (TG 8
              (TG 9
               (TG 10 (TG 12 (TG 13 (TG 6 (TG 5 TY (TG 14 TY TN)) (TG 14 (TG 15 TY TN) TN)) TN) TN) TN)
               TN)
              TN)
             TN)
            (TL 11
             (TL 12
              (TL 13
               (TL 14
                (TL 15 TY (TL 6 (TL 7 (TL 8 (TL 9 (TL 10 TY TN) TN) TN) TN) TN))
                (TL 5 (TL 6 (TL 7 (TL 8 (TL 9 (TL 10 TY TN) TN) TN) TN) TN) TN))
               TN)
              TN)
             TN))))
         (TG 10
          (TG 7
           (TG 8
            (TG 9
             (TG 11
              (TG 12
               (TG 6
                (TG 5 (TG 4 TY (TG 13 TY TN)) (TG 13 (TG 14 TY TN) TN))
                (TG 13 (TG 14 (TG 15 TY TN) TN) TN))
               TN)
              TN)
             TN)
            TN)
           TN)
          (TL 10
           (TL 11
            (TL 12
             (TL 13
              (TL 14
               (TL 15 TY (TL 6 (TL 7 (TL 8 (TL 9 TY TN) TN) TN) TN))
               (TL 5 (TL 6 (TL 7 (TL 8 (TL 9 TY TN) TN) TN) TN) TN))
              (TL 4 (TL 5 (TL 6 (TL 7 (TL 8 (TL 9 TY TN) TN) TN) TN) TN) TN))
             TN)
            TN)
           TN))))
       (TG 9
        (TG 7
         (TG 8
          (TG 10
           (TG 11
            (TG 6
             (TG 5
              (TG 4 (TG 3 TY (TG 12 TY TN)) (TG 12 (TG 13 TY TN) TN))
              (TG 12 (TG 13 (TG 14 TY TN) TN) TN))
             (TG 12 (TG 13 (TG 14 (TG 15 TY TN) TN) TN) TN))
            TN)
           TN)
          TN)
         TN)
        (TL 9
         (TL 10
          (TL 11
           (TL 12
            (TL 13
             (TL 14
              (TL 15 TY (TL 6 (TL 7 (TL 8 TY TN) TN) TN))
              (TL 5 (TL 6 (TL 7 (TL 8 TY TN) TN) TN) TN))
             (TL 4 (TL 5 (TL 6 (TL 7 (TL 8 TY TN) TN) TN) TN) TN))
            (TL 3 (TL 4 (TL 5 (TL 6 (TL 7 (TL 8 TY TN) TN) TN) TN) TN) TN))
           TN)
          TN)
         TN))))
     (TG 8
      (TG 7
       (TG 9
        (TG 10
         (TG 6
          (TG 5
           (TG 4
            (TG 3 (TG 2 TY (TG 11 TY TN)) (TG 11 (TG 12 TY TN) TN))
            (TG 11 (TG 12 (TG 13 TY TN) TN) TN))
           (TG 11 (TG 12 (TG 13 (TG 14 TY TN) TN) TN) TN))
          (TG 11 (TG 12 (TG 13 (TG 14 (TG 15 TY TN) TN) TN) TN) TN))
         TN)
        TN)
       TN)
      (TL 8
       (TL 9
        (TL 10
         (TL 11
          (TL 12
           (TL 13
            (TL 14 (TL 15 TY (TL 6 (TL 7 TY TN) TN)) (TL 5 (TL 6 (TL 7 TY TN) TN) TN))
            (TL 4 (TL 5 (TL 6 (TL 7 TY TN) TN) TN) TN))
           (TL 3 (TL 4 (TL 5 (TL 6 (TL 7 TY TN) TN) TN) TN) TN))
          (TL 2 (TL 3 (TL 4 (TL 5 (TL 6 (TL 7 TY TN) TN) TN) TN) TN) TN))
         TN)
        TN)
       TN))))
   (TG 7
    (TG 8
     (TG 9
      (TG 6
       (TG 5
        (TG 4
         (TG 3
          (TG 2 (TG 1 TY (TG 10 TY TN)) (TG 10 (TG 11 TY TN) TN))
          (TG 10 (TG 11 (TG 12 TY TN) TN) TN))
         (TG 10 (TG 11 (TG 12 (TG 13 TY TN) TN) TN) TN))
        (TG 10 (TG 11 (TG 12 (TG 13 (TG 14 TY TN) TN) TN) TN) TN))
       (TG 10 (TG 11 (TG 12 (TG 13 (TG 14 (TG 15 TY TN) TN) TN) TN) TN) TN))
      TN)
     TN)
    (TL 7
     (TL 8
      (TL 9
       (TL 6
        (TL 5
         (TL 4
          (TL 3
           (TL 2 (TL 1 TY (TL 10 TY TN)) (TL 10 (TL 11 TY TN) TN))
           (TL 10 (TL 11 (TL 12 TY TN) TN) TN))
          (TL 10 (TL 11 (TL 12 (TL 13 TY TN) TN) TN) TN))
         (TL 10 (TL 11 (TL 12 (TL 13 (TL 14 TY TN) TN) TN) TN) TN))
        (TL 10 (TL 11 (TL 12 (TL 13 (TL 14 (TL 15 TY TN) TN) TN) TN) TN) TN))
       TN)
      TN)
     TN))).

(** fast9_detect, src/fast/fast_9.c:3015-5915 ([TY] is the empty statement, [TN] is
    continue). *)
Definition detect_tree : dtree :=
 TG 0
  (TG 1
   (TG 2
    (TG 3
     (TG 4
      (TG 5
       (TG 6
        (TG 7
         (TG 8 TY (TG 15 TY TN))
         (TL 7
          (TG 14
           (TG 15 TY TN)
           (TL 14 (TL 8 (TL 9 (TL 10 (TL 11 (TL 12 (TL 13 (TL 15 TY TN) TN) TN) TN) TN) TN) TN) TN))
          (TG 14 (TG 15 TY TN) TN)))
        (TL 6
         (TG 15
          (TG 13
           (TG 14 TY TN)
           (TL 13 (TL 7 (TL 8 (TL 9 (TL 10 (TL 11 (TL 12 (TL 14 TY TN) TN) TN) TN) TN) TN) TN) TN))
          (TL 7 (TL 8 (TL 9 (TL 10 (TL 11 (TL 12 (TL 13 (TL 14 TY TN) TN) TN) TN) TN) TN) TN) TN))
         (TG 13
          (TG 14 (TG 15 TY TN) TN)
          (TL 13
           (TL 7 (TL 8 (TL 9 (TL 10 (TL 11 (TL 12 (TL 14 (TL 15 TY TN) TN) TN) TN) TN) TN) TN) TN)
           TN))))
       (TL 5
        (TG 14
         (TG 12
          (TG 13 (TG 15 TY (TG 6 (TG 7 (TG 8 (TG 9 (TG 10 (TG 11 TY TN) TN) TN) TN) TN) TN)) TN)
          (TL 12 (TL 6 (TL 7 (TL 8 (TL 9 (TL 10 (TL 11 (TL 13 TY TN) TN) TN) TN) TN) TN) TN) TN))
         (TL 14
          (TL 7
           (TL 8 (TL 9 (TL 10 (TL 11 (TL 12 (TL 13 (TL 6 TY (TL 15 TY TN)) TN) TN) TN) TN) TN) TN)
           TN)
          (TL 6 (TL 7 (TL 8 (TL 9 (TL 10 (TL 11 (TL 12 (TL 13 TY TN) TN) TN) TN) TN) TN) TN) TN)))
        (TG 12
         (TG 13
          (TG 14 (TG 15 TY (TG 6 (TG 7 (TG 8 (TG 9 (TG 10 (TG 11 TY TN) TN) TN) TN) TN) TN)) TN)
          TN)
         (TL 12
          (TL 7
           (TL 8 (TL 9 (TL 10 (TL 11 (TL 13 (TL 14 (TL 6 TY (TL 15 TY TN)) TN) TN) TN) TN) TN) TN)
           TN)
          TN))))
      (TL 4
       (TG 13
        (TG 11
         (TG 12
          (TG 14
           (TG 15 TY (TG 6 (TG 7 (TG 8 (TG 9 (TG 10 TY TN) TN) TN) TN) TN))
           (TG 5 (TG 6 (TG 7 (TG 8 (TG 9 (TG 10 TY TN) TN) TN) TN) TN) TN))
          TN)
         (TL 11 (TL 5 (TL 6 (TL 7 (TL 8 (TL 9 (TL 10 (TL 12 TY TN) TN) TN) TN) TN) TN) TN) TN))
        (TL 13
         (TL 7
          (TL 8
           (TL 9
            (TL 10 (TL 11 (TL 12 (TL 6 (TL 5 TY (TL 14 TY TN)) (TL 14 (TL 15 TY TN) TN)) TN) TN) TN)
            TN)
           TN)
          TN)
         (TL 5 (TL 6 (TL 7 (TL 8 (TL 9 (TL 10 (TL 11 (TL 12 TY TN) TN) TN) TN) TN) TN) TN) TN)))
       (TG 11
        (TG 12
         (TG 13
          (TG 14
           (TG 15 TY (TG 6 (TG 7 (TG 8 (TG 9 (TG 10 TY TN) TN) TN) TN) TN))
           (TG 5 (TG 6 (TG 7 (TG 8 (TG 9 (TG 10 TY TN) TN) TN) TN) TN) TN))
          TN)
         TN)
        (TL 11
         (TL 7
          (TL 8
           (TL 9
            (TL 10 (TL 12 (TL 13 (TL 6 (TL 5 TY (TL 14 TY TN)) (TL 14 (TL 15 TY TN) TN)) TN) TN) TN)
            TN)
           TN)
          TN)
         TN))))
     (TL 3
      (TG 10
       (TG 11
        (TG 12
         (TG 13
          (TG 14
           (TG 15 TY (TG 6 (TG 7 (TG 8 (TG 9 TY TN) TN) TN) TN))
           (TG 5 (TG 6 (TG 7 (TG 8 (TG 9 TY TN) TN) TN) TN) TN))
          (TG 4 (TG 5 (TG 6 (TG 7 (TG 8 (TG 9 TY TN) TN) TN) TN) TN) TN))
         TN)
        TN)
       (TL 10
        (TL 7
         (TL 8
          (TL 9
           (TL 11
            (TL 6
             (TL 5 (TL 4 TY (TL 12 (TL 13 TY TN) TN)) (TL 12 (TL 13 (TL 14 TY TN) TN) TN))
             (TL 12 (TL 13 (TL 14 (TL 15 TY TN) TN) TN) TN))
            TN)
           TN)
          TN)
         TN)
        TN))
      (TG 10
       (TG 11
        (TG 12
         (TG 13
          (TG 14
           (TG 15 TY (TG 6 (TG 7 (TG 8 (TG 9 TY TN) TN) TN) TN))
           (TG 5 (TG 6 (TG 7 (TG 8 (TG 9 TY TN) TN) TN) TN) TN))
          (TG 4 (TG 5 (TG 6 (TG 7 (TG 8 (TG 9 TY TN) TN) TN) TN) TN) TN))
         TN)
        TN)
       (TL 10
        (TL 7
         (TL 8
          (TL 9
           (TL 11
            (TL 12
             (TL 6
              (TL 5 (TL 4 TY (TL 13 TY TN)) (TL 13 (TL 14 TY TN) TN))
              (TL 13 (TL 14 (TL 15 TY TN) TN) TN))
             TN)
            TN)
           TN)
          TN)
         TN)
        TN))))
    (TL 2
     (TG 9
      (TG 10
       (TG 11
        (TG 12
         (TG 13
          (TG 14
           (TG 15 TY (TG 6 (TG 7 (TG 8 TY TN) TN) TN))
           (TG 5 (TG 6 (TG 7 (TG 8 TY TN) TN) TN) TN))
          (TG 4 (TG 5 (TG 6 (TG 7 (TG 8 TY TN) TN) TN) TN) TN))
         (TG 3 (TG 4 (TG 5 (TG 6 (TG 7 (TG 8 TY TN) TN) TN) TN) TN) TN))
        TN)
       TN)
      (TL 9
       (TL 7
        (TL 8
         (TL 10
          (TL 6
           (TL 5
            (TL 4 (TL 3 TY (TL 11 (TL 12 TY TN) TN)) (TL 11 (TL 12 (TL 13 TY TN) TN) TN))
            (TL 11 (TL 12 (TL 13 (TL 14 TY TN) TN) TN) TN))
           (TL 11 (TL 12 (TL 13 (TL 14 (TL 15 TY TN) TN) TN) TN) TN))
          TN)
         TN)
        TN)
       TN))
     (TG 9
      (TG 10
       (TG 11
        (TG 12
         (TG 13
          (TG 14
           (TG 15 TY (TG 6 (TG 7 (TG 8 TY TN) TN) TN))
           (TG 5 (TG 6 (TG 7 (TG 8 TY TN) TN) TN) TN))
          (TG 4 (TG 5 (TG 6 (TG 7 (TG 8 TY TN) TN) TN) TN) TN))
         (TG 3 (TG 4 (TG 5 (TG 6 (TG 7 (TG 8 TY TN) TN) TN) TN) TN) TN))
        TN)
       TN)
      (TL 9
       (TL 7
        (TL 8
         (TL 10
          (TL 11
           (TL 6
            (TL 5
             (TL 4 (TL 3 TY (TL 12 TY TN)) (TL 12 (TL 13 TY TN) TN))
             (TL 12 (TL 13 (TL 14 TY TN) TN) TN))
            (TL 12 (TL 13 (TL 14 (TL 15 TY TN) TN) TN) TN))
           TN)
          TN)
         TN)
        TN)
       TN))))
   (TL 1
    (TG 8
     (TG 9
      (TG 10
       (TG 11
        (TG 12
         (TG 13
          (TG 14 (TG 15 TY (TG 6 (TG 7 TY TN) TN)) (TG 5 (TG 6 (TG 7 TY TN) TN) TN))
          (TG 4 (TG 5 (TG 6 (TG 7 TY TN) TN) TN) TN))
         (TG 3 (TG 4 (TG 5 (TG 6 (TG 7 TY TN) TN) TN) TN) TN))
        (TG 2 (TG 3 (TG 4 (TG 5 (TG 6 (TG 7 TY TN) TN) TN) TN) TN) TN))
       TN)
      TN)
     (TL 8
      (TL 7
       (TL 9
        (TL 6
         (TL 5
          (TL 4
           (TL 3 (TL 2 TY (TL 10 (TL 11 TY TN) TN)) (TL 10 (TL 11 (TL 12 TY TN) TN) TN))
           (TL 10 (TL 11 (TL 12 (TL 13 TY TN) TN) TN) TN))
          (TL 10 (TL 11 (TL 12 (TL 13 (TL 14 TY TN) TN) TN) TN) TN))
         (TL 10 (TL 11 (TL 12 (TL 13 (TL 14 (TL 15 TY TN) TN) TN) TN) TN) TN))
        TN)
       TN)
      TN))
    (TG 8
     (TG 9
      (TG 10
       (TG 11
        (TG 12
         (TG 13
          (TG 14 (TG 15 TY (TG 6 (TG 7 TY TN) TN)) (TG 5 (TG 6 (TG 7 TY TN) TN) TN))
          (TG 4 (TG 5 (TG 6 (TG 7 TY TN) TN) TN) TN))
         (TG 3 (TG 4 (TG 5 (TG 6 (TG 7 TY TN) TN) TN) TN) TN))
        (TG 2 (TG 3 (TG 4 (TG 5 (TG 6 (TG 7 TY TN) TN) TN) TN) TN) TN))
       TN)
      TN)
     (TL 8
      (TL 7
       (TL 9
        (TL 10
         (TL 6
          (TL 5
           (TL 4
            (TL 3 (TL 2 TY (TL 11 TY TN)) (TL 11 (TL 12 TY TN) TN))
            (TL 11 (TL 12 (TL 13 TY TN) TN) TN))
           (TL 11 (TL 12 (TL 13 (TL 14 TY TN) TN) TN) TN))
          (TL 11 (TL 12 (TL 13 (TL 14 (TL 15 TY TN) TN) TN) TN) TN))
         TN)
        TN)
       TN)
      TN))))
  (TL 0
   (TG 1
    (TG 8
     (TG 7
      (TG 9
       (TG 6
        (TG 5
         (TG 4
          (TG 3 (TG 2 TY (TG 10 (TG 11 TY TN) TN)) (TG 10 (TG 11 (TG 12 TY TN) TN) TN))
          (TG 10 (TG 11 (TG 12 (TG 13 TY TN) TN) TN) TN))
         (TG 10 (TG 11 (TG 12 (TG 13 (TG 14 TY TN) TN) TN) TN) TN))
        (TG 10 (TG 11 (TG 12 (TG 13 (TG 14 (TG 15 TY TN) TN) TN) TN) TN) TN))
       TN)
      TN)
     (TL 8
      (TL 9
       (TL 10
        (TL 11
         (TL 12
          (TL 13
           (TL 14 (TL 15 TY (TL 6 (TL 7 TY TN) TN)) (TL 5 (TL 6 (TL 7 TY TN) TN) TN))
           (TL 4 (TL 5 (TL 6 (TL 7 TY TN) TN) TN) TN))
          (TL 3 (TL 4 (TL 5 (TL 6 (TL 7 TY TN) TN) TN) TN) TN))
         (TL 2 (TL 3 (TL 4 (TL 5 (TL 6 (TL 7 TY TN) TN) TN) TN) TN) TN))
        TN)
       TN)
      TN))
    (TL 1
     (TG 2
      (TG 9
       (TG 7
        (TG 8
         (TG 10
          (TG 6
           (TG 5
            (TG 4 (TG 3 TY (TG 11 (TG 12 TY TN) TN)) (TG 11 (TG 12 (TG 13 TY TN) TN) TN))
            (TG 11 (TG 12 (TG 13 (TG 14 TY TN) TN) TN) TN))
           (TG 11 (TG 12 (TG 13 (TG 14 (TG 15 TY TN) TN) TN) TN) TN))
          TN)
         TN)
        TN)
       (TL 9
        (TL 10
         (TL 11
          (TL 12
           (TL 13
            (TL 14
             (TL 15 TY (TL 6 (TL 7 (TL 8 TY TN) TN) TN))
             (TL 5 (TL 6 (TL 7 (TL 8 TY TN) TN) TN) TN))
            (TL 4 (TL 5 (TL 6 (TL 7 (TL 8 TY TN) TN) TN) TN) TN))
           (TL 3 (TL 4 (TL 5 (TL 6 (TL 7 (TL 8 TY TN) TN) TN) TN) TN) TN))
          TN)
         TN)
        TN))
      (TL 2
       (TG 3
        (TG 10
         (TG 7
          (TG 8
           (TG 9
            (TG 11
             (TG 6
              (TG 5 (TG 4 TY (TG 12 (TG 13 TY TN) TN)) (TG 12 (TG 13 (TG 14 TY TN) TN) TN))
              (TG 12 (TG 13 (TG 14 (TG 15 TY TN) TN) TN) TN))
             TN)
            TN)
           TN)
          TN)
         (TL 10
          (TL 11
           (TL 12
            (TL 13
             (TL 14
              (TL 15 TY (TL 6 (TL 7 (TL 8 (TL 9 TY TN) TN) TN) TN))
              (TL 5 (TL 6 (TL 7 (TL 8 (TL 9 TY TN) TN) TN) TN) TN))
             (TL 4 (TL 5 (TL 6 (TL 7 (TL 8 (TL 9 TY TN) TN) TN) TN) TN) TN))
            TN)
           TN)
          TN))
        (TL 3
         (TG 4
          (TG 13
           (TG 7
            (TG 8
             (TG 9
              (TG 10 (TG 11 (TG 12 (TG 6 (TG 5 TY (TG 14 TY TN)) (TG 14 (TG 15 TY TN) TN)) TN) TN) TN)
              TN)
             TN)
            TN)
           (TL 13
            (TG 11
             (TG 5 (TG 6 (TG 7 (TG 8 (TG 9 (TG 10 (TG 12 TY TN) TN) TN) TN) TN) TN) TN)
             (TL 11
              (TL 12
               (TL 14
                (TL 15 TY (TL 6 (TL 7 (TL 8 (TL 9 (TL 10 TY TN) TN) TN) TN) TN))
                (TL 5 (TL 6 (TL 7 (TL 8 (TL 9 (TL 10 TY TN) TN) TN) TN) TN) TN))
               TN)
              TN))
            (TG 5 (TG 6 (TG 7 (TG 8 (TG 9 (TG 10 (TG 11 (TG 12 TY TN) TN) TN) TN) TN) TN) TN) TN)))
          (TL 4
           (TG 5
            (TG 14
             (TG 7
              (TG 8 (TG 9 (TG 10 (TG 11 (TG 12 (TG 13 (TG 6 TY (TG 15 TY TN)) TN) TN) TN) TN) TN) TN)
              TN)
             (TL 14
              (TG 12
               (TG 6 (TG 7 (TG 8 (TG 9 (TG 10 (TG 11 (TG 13 TY TN) TN) TN) TN) TN) TN) TN)
               (TL 12
                (TL 13 (TL 15 TY (TL 6 (TL 7 (TL 8 (TL 9 (TL 10 (TL 11 TY TN) TN) TN) TN) TN) TN)) TN)
                TN))
              (TG 6 (TG 7 (TG 8 (TG 9 (TG 10 (TG 11 (TG 12 (TG 13 TY TN) TN) TN) TN) TN) TN) TN) TN)))
            (TL 5
             (TG 6
              (TL 15
               (TG 13
                (TG 7 (TG 8 (TG 9 (TG 10 (TG 11 (TG 12 (TG 14 TY TN) TN) TN) TN) TN) TN) TN)
                (TL 13 (TL 14 TY TN) TN))
               (TG 7 (TG 8 (TG 9 (TG 10 (TG 11 (TG 12 (TG 13 (TG 14 TY TN) TN) TN) TN) TN) TN) TN) TN))
              (TL 6
               (TG 7
                (TG 14
                 (TG 8 (TG 9 (TG 10 (TG 11 (TG 12 (TG 13 (TG 15 TY TN) TN) TN) TN) TN) TN) TN)
                 (TL 14 (TL 15 TY TN) TN))
                (TL 7 (TL 8 TY (TL 15 TY TN)) (TL 14 (TL 15 TY TN) TN)))
               (TG 13
                (TG 7 (TG 8 (TG 9 (TG 10 (TG 11 (TG 12 (TG 14 (TG 15 TY TN) TN) TN) TN) TN) TN) TN) TN)
                (TL 13 (TL 14 (TL 15 TY TN) TN) TN))))
             (TG 12
              (TG 7
               (TG 8 (TG 9 (TG 10 (TG 11 (TG 13 (TG 14 (TG 6 TY (TG 15 TY TN)) TN) TN) TN) TN) TN) TN)
               TN)
              (TL 12
               (TL 13
                (TL 14 (TL 15 TY (TL 6 (TL 7 (TL 8 (TL 9 (TL 10 (TL 11 TY TN) TN) TN) TN) TN) TN)) TN)
                TN)
               TN))))
           (TG 11
            (TG 7
             (TG 8
              (TG 9
               (TG 10 (TG 12 (TG 13 (TG 6 (TG 5 TY (TG 14 TY TN)) (TG 14 (TG 15 TY TN) TN)) TN) TN) TN)
               TN)
              TN)
             TN)
            (TL 11
             (TL 12
              (TL 13
               (TL 14
                (TL 15 TY (TL 6 (TL 7 (TL 8 (TL 9 (TL 10 TY TN) TN) TN) TN) TN))
                (TL 5 (TL 6 (TL 7 (TL 8 (TL 9 (TL 10 TY TN) TN) TN) TN) TN) TN))
               TN)
              TN)
             TN))))
         (TG 10
          (TG 7
           (TG 8
            (TG 9
             (TG 11
              (TG 12
               (TG 6
                (TG 5 (TG 4 TY (TG 13 TY TN)) (TG 13 (TG 14 TY TN) TN))
                (TG 13 (TG 14 (TG 15 TY TN) TN) TN))
               TN)
              TN)
             TN)
            TN)
           TN)
          (TL 10
           (TL 11
            (TL 12
             (TL 13
              (TL 14
               (TL 15 TY (TL 6 (TL 7 (TL 8 (TL 9 TY TN) TN) TN) TN))
               (TL 5 (TL 6 (TL 7 (TL 8 (TL 9 TY TN) TN) TN) TN) TN))
              (TL 4 (TL 5 (TL 6 (TL 7 (TL 8 (TL 9 TY TN) TN) TN) TN) TN) TN))
             TN)
            TN)
           TN))))
       (TG 9
        (TG 7
         (TG 8
          (TG 10
           (TG 11
            (TG 6
             (TG 5
              (TG 4 (TG 3 TY (TG 12 TY TN)) (TG 12 (TG 13 TY TN) TN))
              (TG 12 (TG 13 (TG 14 TY TN) TN) TN))
             (TG 12 (TG 13 (TG 14 (TG 15 TY TN) TN) TN) TN))
            TN)
           TN)
          TN)
         TN)
        (TL 9
         (TL 10
          (TL 11
           (TL 12
            (TL 13
             (TL 14
              (TL 15 TY (TL 6 (TL 7 (TL 8 TY TN) TN) TN))
              (TL 5 (TL 6 (TL 7 (TL 8 TY TN) TN) TN) TN))
             (TL 4 (TL 5 (TL 6 (TL 7 (TL 8 TY TN) TN) TN) TN) TN))
            (TL 3 (TL 4 (TL 5 (TL 6 (TL 7 (TL 8 TY TN) TN) TN) TN) TN) TN))
           TN)
          TN)
         TN))))
     (TG 8
      (TG 7
       (TG 9
        (TG 10
         (TG 6
          (TG 5
           (TG 4
            (TG 3 (TG 2 TY (TG 11 TY TN)) (TG 11 (TG 12 TY TN) TN))
            (TG 11 (TG 12 (TG 13 TY TN) TN) TN))
           (TG 11 (TG 12 (TG 13 (TG 14 TY TN) TN) TN) TN))
          (TG 11 (TG 12 (TG 13 (TG 14 (TG 15 TY TN) TN) TN) TN) TN))
         TN)
        TN)
       TN)
      (TL 8
       (TL 9
        (TL 10
         (TL 11
          (TL 12
           (TL 13
            (TL 14 (TL 15 TY (TL 6 (TL 7 TY TN) TN)) (TL 5 (TL 6 (TL 7 TY TN) TN) TN))
            (TL 4 (TL 5 (TL 6 (TL 7 TY TN) TN) TN) TN))
           (TL 3 (TL 4 (TL 5 (TL 6 (TL 7 TY TN) TN) TN) TN) TN))
          (TL 2 (TL 3 (TL 4 (TL 5 (TL 6 (TL 7 TY TN) TN) TN) TN) TN) TN))
         TN)
        TN)
       TN))))
   (TG 7
    (TG 8
     (TG 9
      (TG 6
       (TG 5
        (TG 4
         (TG 3
          (TG 2 (TG 1 TY (TG 10 TY TN)) (TG 10 (TG 11 TY TN) TN))
          (TG 10 (TG 11 (TG 12 TY TN) TN) TN))
         (TG 10 (TG 11 (TG 12 (TG 13 TY TN) TN) TN) TN))
        (TG 10 (TG 11 (TG 12 (TG 13 (TG 14 TY TN) TN) TN) TN) TN))
       (TG 10 (TG 11 (TG 12 (TG 13 (TG 14 (TG 15 TY TN) TN) TN) TN) TN) TN))
      TN)
     TN)
    (TL 7
     (TL 8
      (TL 9
       (TL 6
        (TL 5
         (TL 4
          (TL 3
           (TL 2 (TL 1 TY (TL 10 TY TN)) (TL 10 (TL 11 TY TN) TN))
           (TL 10 (TL 11 (TL 12 TY TN) TN) TN))
          (TL 10 (TL 11 (TL 12 (TL 13 TY TN) TN) TN) TN))
         (TL 10 (TL 11 (TL 12 (TL 13 (TL 14 TY TN) TN) TN) TN) TN))
        (TL 10 (TL 11 (TL 12 (TL 13 (TL 14 (TL 15 TY TN) TN) TN) TN) TN) TN))
       TN)
      TN)
     TN))).
