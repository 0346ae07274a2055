(** tests/test_obj_parser.rs, run on the model.

    Its file, assets/teapot.obj, and the value expected, with the lists of
    consecutive numbers 0 to 1023 written as [seq 0 1024]. *)
From Coq Require Import String List NArith ZArith Floats.SpecFloat.
From Verif Require Import ParserBase ObjTypes ObjModel EqModel LexerProofs SourceProofs.
Import ListNotations.
Local Open Scope string_scope.
Local Open Scope list_scope.

(** assets/teapot.obj, in pieces of a hundred lines *)
Definition teapot : list Ascii.ascii := concat (map lit [
"# OBJ file created by ply_to_obj.c
#
g Object001  Object002  Object003

v  40.6266  28.3457  -1.10804
v  40.0714  30.4443  -1.10804
v  40.7155  31.1438  -1.10804
v  42.0257  30.4443  -1.10804
v  43.4692  28.3457  -1.10804
v  37.5425  28.3457  14.5117
v  37.0303  30.4443  14.2938
v  37.6244  31.1438  14.5466
v  38.8331  30.4443  15.0609
v  40.1647  28.3457  15.6274
v  29.0859  28.3457  27.1468
v  28.6917  30.4443  26.7527
v  29.149  31.1438  27.2099
v  30.0792  30.4443  28.1402
v  31.1041  28.3457  29.165
v  16.4508  28.3457  35.6034
v  16.2329  30.4443  35.0912
v  16.4857  31.1438  35.6853
v  16.9999  30.4443  36.894
v  17.5665  28.3457  38.2256
v  0.831025  28.3457  38.6876
v  0.831025  30.4443  38.1324
v  0.831025  31.1438  38.7764
v  0.831025  30.4443  40.0866
v  0.831025  28.3457  41.5301
v  -15.868  28.3457  35.6034
v  -15.0262  30.4443  35.0912
v  -14.9585  31.1438  35.6853
v  -15.3547  30.4443  36.894
v  -15.9044  28.3457  38.2256
v  -28.3832  28.3457  27.1468
v  -27.4344  30.4443  26.7527
v  -27.6068  31.1438  27.2099
v  -28.4322  30.4443  28.1402
v  -29.4421  28.3457  29.165
v  -36.2402  28.3457  14.5117
v  -35.52  30.4443  14.2938
v  -36.0073  31.1438  14.5466
v  -37.1767  30.4443  15.0609
v  -38.5027  28.3457  15.6274
v  -38.9646  28.3457  -1.10804
v  -38.4094  30.4443  -1.10804
v  -39.0534  31.1438  -1.10804
v  -40.3636  30.4443  -1.10804
v  -41.8071  28.3457  -1.10804
v  -35.8804  28.3457  -16.7278
v  -35.3683  30.4443  -16.5099
v  -35.9624  31.1438  -16.7627
v  -37.1711  30.4443  -17.2769
v  -38.5027  28.3457  -17.8435
v  -27.4238  28.3457  -29.3629
v  -27.0297  30.4443  -28.9687
v  -27.4869  31.1438  -29.426
v  -28.4172  30.4443  -30.3562
v  -29.4421  28.3457  -31.3811
v  -14.7887  28.3457  -37.8195
v  -14.5708  30.4443  -37.3073
v  -14.8236  31.1438  -37.9014
v  -15.3379  30.4443  -39.1101
v  -15.9044  28.3457  -40.4417
v  0.831025  28.3457  -40.9036
v  0.831025  30.4443  -40.3484
v  0.831025  31.1438  -40.9925
v  0.831025  30.4443  -42.3027
v  0.831025  28.3457  -43.7462
v  16.4508  28.3457  -37.8195
v  16.2329  30.4443  -37.3073
v  16.4857  31.1438  -37.9014
v  16.9999  30.4443  -39.1101
v  17.5665  28.3457  -40.4417
v  29.0859  28.3457  -29.3629
v  28.6917  30.4443  -28.9687
v  29.149  31.1438  -29.426
v  30.0792  30.4443  -30.3562
v  31.1041  28.3457  -31.3811
v  37.5425  28.3457  -16.7278
v  37.0303  30.4443  -16.5099
v  37.6244  31.1438  -16.7627
v  38.8331  30.4443  -17.2769
v  40.1647  28.3457  -17.8435
v  48.6879  17.1865  -1.10804
v  53.2404  6.22714  -1.10804
v  56.4605  -4.33246  -1.10804
v  57.6819  -14.2925  -1.10804
v  44.979  17.1865  17.6758
v  49.1787  6.22714  19.4626
v  52.1492  -4.33246  20.7265
v  53.2759  -14.2925  21.2059
v  34.8094  17.1865  32.8703
v  38.0417  6.22714  36.1026
v  40.3279  -4.33246  38.3889
v  41.1951  -14.2925  39.2561
v  19.6148  17.1865  43.0399
v  21.4017  6.22714  47.2396
v  22.6656  -4.33246  50.2101
v  23.145  -14.2925  51.3369
";
"v  0.831025  17.1865  46.7488
v  0.831025  6.22714  51.3013
v  0.831025  -4.33246  54.5214
v  0.831025  -14.2925  55.7428
v  -17.9528  17.1865  43.0399
v  -19.7397  6.22714  47.2396
v  -21.0035  -4.33246  50.2101
v  -21.4829  -14.2925  51.3369
v  -33.1474  17.1865  32.8703
v  -36.3796  6.22714  36.1026
v  -38.6659  -4.33246  38.3889
v  -39.5331  -14.2925  39.2561
v  -43.3169  17.1865  17.6758
v  -47.5166  6.22714  19.4626
v  -50.4871  -4.33246  20.7265
v  -51.6139  -14.2925  21.2059
v  -47.0258  17.1865  -1.10804
v  -51.5784  6.22714  -1.10804
v  -54.7984  -4.33246  -1.10804
v  -56.0198  -14.2925  -1.10804
v  -43.3169  17.1865  -19.8919
v  -47.5166  6.22714  -21.6787
v  -50.4871  -4.33246  -22.9426
v  -51.6139  -14.2925  -23.422
v  -33.1474  17.1865  -35.0864
v  -36.3796  6.22714  -38.3187
v  -38.6659  -4.33246  -40.6049
v  -39.5331  -14.2925  -41.4721
v  -17.9528  17.1865  -45.256
v  -19.7397  6.22714  -49.4557
v  -21.0035  -4.33246  -52.4262
v  -21.4829  -14.2925  -53.5529
v  0.831025  17.1865  -48.9649
v  0.831025  6.22714  -53.5174
v  0.831025  -4.33246  -56.7375
v  0.831025  -14.2925  -57.9589
v  19.6148  17.1865  -45.256
v  21.4017  6.22714  -49.4557
v  22.6656  -4.33246  -52.4262
v  23.145  -14.2925  -53.5529
v  34.8094  17.1865  -35.0864
v  38.0417  6.22714  -38.3187
v  40.3279  -4.33246  -40.6049
v  41.1951  -14.2925  -41.4721
v  44.979  17.1865  -19.8919
v  49.1787  6.22714  -21.6787
v  52.1492  -4.33246  -22.9426
v  53.2759  -14.2925  -23.422
v  55.4611  -22.7202  -1.10804
v  50.5755  -28.9493  -1.10804
v  45.6899  -33.1798  -1.10804
v  43.4692  -35.6115  -1.10804
v  51.2273  -22.7202  20.3343
v  46.7203  -28.9493  18.4167
v  42.2133  -33.1798  16.4991
v  40.1647  -35.6115  15.6274
v  39.6184  -22.7202  37.6793
v  36.1496  -28.9493  34.2106
v  32.6808  -33.1798  30.7418
v  31.1041  -35.6115  29.165
v  22.2733  -22.7202  49.2882
v  20.3557  -28.9493  44.7813
v  18.4381  -33.1798  40.2743
v  17.5665  -35.6115  38.2256
v  0.831025  -22.7202  53.5221
v  0.831025  -28.9493  48.6365
v  0.831025  -33.1798  43.7508
v  0.831025  -35.6115  41.5301
v  -20.6113  -22.7202  49.2882
v  -18.6937  -28.9493  44.7813
v  -16.7761  -33.1798  40.2743
v  -15.9044  -35.6115  38.2256
v  -37.9564  -22.7202  37.6793
v  -34.4876  -28.9493  34.2106
v  -31.0188  -33.1798  30.7418
v  -29.4421  -35.6115  29.165
v  -49.5653  -22.7202  20.3343
v  -45.0583  -28.9493  18.4167
v  -40.5513  -33.1798  16.4991
v  -38.5027  -35.6115  15.6274
v  -53.7991  -22.7202  -1.10804
v  -48.9135  -28.9493  -1.10804
v  -44.0279  -33.1798  -1.10804
v  -41.8071  -35.6115  -1.10804
v  -49.5653  -22.7202  -22.5504
v  -45.0583  -28.9493  -20.6327
v  -40.5513  -33.1798  -18.7151
v  -38.5027  -35.6115  -17.8435
v  -37.9564  -22.7202  -39.8954
v  -34.4876  -28.9493  -36.4266
v  -31.0188  -33.1798  -32.9578
v  -29.4421  -35.6115  -31.3811
v  -20.6113  -22.7202  -51.5043
v  -18.6937  -28.9493  -46.9973
v  -16.7761  -33.1798  -42.4903
v  -15.9044  -35.6115  -40.4417
v  0.831025  -22.7202  -55.7382
v  0.831025  -28.9493  -50.8525
v  0.831025  -33.1798  -45.9669
v  0.831025  -35.6115  -43.7462
";
"v  22.2733  -22.7202  -51.5043
v  20.3557  -28.9493  -46.9973
v  18.4381  -33.1798  -42.4903
v  17.5665  -35.6115  -40.4417
v  39.6184  -22.7202  -39.8954
v  36.1496  -28.9493  -36.4266
v  32.6808  -33.1798  -32.9578
v  31.1041  -35.6115  -31.3811
v  51.2273  -22.7202  -22.5504
v  46.7203  -28.9493  -20.6327
v  42.2133  -33.1798  -18.7151
v  40.1647  -35.6115  -17.8435
v  42.5031  -37.1772  -1.10804
v  37.3399  -38.5429  -1.10804
v  24.5818  -39.5089  -1.10804
v  0.831025  -39.8754  -1.10804
v  39.2736  -37.1772  15.2483
v  34.5105  -38.5429  13.2217
v  22.7411  -39.5089  8.21414
v  30.4182  -37.1772  28.4792
v  26.7523  -38.5429  24.8133
v  17.6941  -39.5089  15.755
v  17.1873  -37.1772  37.3345
v  15.1608  -38.5429  32.5714
v  10.1532  -39.5089  20.8021
v  0.831025  -37.1772  40.5641
v  0.831025  -38.5429  35.4009
v  0.831025  -39.5089  22.6427
v  -15.5253  -37.1772  37.3345
v  -13.4987  -38.5429  32.5714
v  -8.49115  -39.5089  20.8021
v  -28.7562  -37.1772  28.4792
v  -25.0903  -38.5429  24.8133
v  -16.032  -39.5089  15.755
v  -37.6115  -37.1772  15.2483
v  -32.8484  -38.5429  13.2217
v  -21.0791  -39.5089  8.21414
v  -40.8411  -37.1772  -1.10804
v  -35.6779  -38.5429  -1.10804
v  -22.9198  -39.5089  -1.10804
v  -37.6115  -37.1772  -17.4643
v  -32.8484  -38.5429  -15.4378
v  -21.0791  -39.5089  -10.4302
v  -28.7562  -37.1772  -30.6952
v  -25.0903  -38.5429  -27.0294
v  -16.032  -39.5089  -17.9711
v  -15.5253  -37.1772  -39.5506
v  -13.4987  -38.5429  -34.7875
v  -8.49115  -39.5089  -23.0181
v  0.831025  -37.1772  -42.7802
v  0.831025  -38.5429  -37.6169
v  0.831025  -39.5089  -24.8588
v  17.1873  -37.1772  -39.5506
v  15.1608  -38.5429  -34.7875
v  10.1532  -39.5089  -23.0181
v  30.4182  -37.1772  -30.6952
v  26.7523  -38.5429  -27.0294
v  17.6941  -39.5089  -17.9711
v  39.2736  -37.1772  -17.4643
v  34.5105  -38.5429  -15.4378
v  22.7411  -39.5089  -10.4302
v  -44.6497  17.6861  -1.10804
v  -57.9297  17.5862  -1.10804
v  -67.7453  16.8867  -1.10804
v  -73.8301  14.9879  -1.10804
v  -75.9176  11.2904  -1.10804
v  -44.2055  18.6855  3.68876
v  -58.3252  18.5699  3.68876
v  -68.6891  17.7611  3.68876
v  -75.0724  15.5657  3.68876
v  -77.2501  11.2904  3.68876
v  -43.2284  20.884  5.28769
v  -59.1955  20.7341  5.28769
v  -70.7655  19.6848  5.28769
v  -77.8053  16.8367  5.28769
v  -80.1814  11.2904  5.28769
v  -42.2513  23.0825  3.68876
v  -60.0657  22.8983  3.68876
v  -72.8419  21.6085  3.68876
v  -80.5381  18.1077  3.68876
v  -83.1128  11.2904  3.68876
v  -41.8071  24.0819  -1.10804
v  -60.4613  23.882  -1.10804
v  -73.7857  22.4829  -1.10804
v  -81.7804  18.6855  -1.10804
v  -84.4453  11.2904  -1.10804
v  -42.2513  23.0825  -5.90483
v  -60.0657  22.8983  -5.90483
v  -72.8419  21.6085  -5.90483
v  -80.5381  18.1077  -5.90483
v  -83.1128  11.2904  -5.90483
v  -43.2284  20.884  -7.50376
v  -59.1955  20.7341  -7.50376
v  -70.7655  19.6848  -7.50376
v  -77.8053  16.8367  -7.50376
v  -80.1814  11.2904  -7.50376
v  -44.2055  18.6855  -5.90483
v  -58.3252  18.5699  -5.90483
v  -68.6891  17.7611  -5.90483
v  -75.0724  15.5657  -5.90483
";
"v  -77.2501  11.2904  -5.90483
v  -74.8073  5.4943  -1.10804
v  -71.2985  -1.50103  -1.10804
v  -65.1248  -8.49634  -1.10804
v  -56.0198  -14.2925  -1.10804
v  -76.0183  4.93477  3.68876
v  -72.159  -2.35462  3.68876
v  -65.4267  -9.55033  3.68876
v  -55.5757  -15.6249  3.68876
v  -78.6824  3.70383  5.28769
v  -74.0522  -4.23253  5.28769
v  -66.0909  -11.8691  5.28769
v  -54.5986  -18.5563  5.28769
v  -81.3466  2.47288  3.68876
v  -75.9454  -6.11044  3.68876
v  -66.755  -14.1878  3.68876
v  -53.6214  -21.4877  3.68876
v  -82.5576  1.91336  -1.10804
v  -76.8059  -6.96404  -1.10804
v  -67.0569  -15.2418  -1.10804
v  -53.1773  -22.8201  -1.10804
v  -81.3466  2.47288  -5.90483
v  -75.9454  -6.11044  -5.90483
v  -66.755  -14.1878  -5.90483
v  -53.6214  -21.4877  -5.90483
v  -78.6824  3.70383  -7.50376
v  -74.0522  -4.23253  -7.50376
v  -66.0909  -11.8691  -7.50376
v  -54.5986  -18.5563  -7.50376
v  -76.0183  4.93477  -5.90483
v  -72.159  -2.35462  -5.90483
v  -65.4267  -9.55033  -5.90483
v  -55.5757  -15.6249  -5.90483
v  49.1543  0.630882  -1.10804
v  62.7896  3.76212  -1.10804
v  68.6967  11.2904  -1.10804
v  71.939  20.4176  -1.10804
v  77.5797  28.3457  -1.10804
v  49.1543  -3.03333  9.4449
v  63.8305  1.04519  8.42059
v  70.0292  9.70814  6.1671
v  73.5629  19.8451  3.91361
v  80.2446  28.3457  2.88929
v  49.1543  -11.0946  12.9626
v  66.1207  -4.93206  11.5968
v  72.9605  6.22714  8.59214
v  77.1355  18.5855  5.58749
v  86.1073  28.3457  4.22173
v  49.1543  -19.1559  9.4449
v  68.4108  -10.9093  8.42059
v  75.8919  2.74614  6.1671
v  80.7081  17.326  3.91361
v  91.97  28.3457  2.88929
v  49.1543  -22.8201  -1.10804
v  69.4518  -13.6262  -1.10804
v  77.2244  1.16386  -1.10804
v  82.3321  16.7534  -1.10804
v  94.6349  28.3457  -1.10804
v  49.1543  -19.1559  -11.661
v  68.4108  -10.9093  -10.6367
v  75.8919  2.74614  -8.38317
v  80.7081  17.326  -6.12968
v  91.97  28.3457  -5.10536
v  49.1543  -11.0946  -15.1786
v  66.1207  -4.93206  -13.8129
v  72.9605  6.22714  -10.8082
v  77.1355  18.5855  -7.80356
v  86.1073  28.3457  -6.4378
v  49.1543  -3.03333  -11.661
v  63.8305  1.04519  -10.6367
v  70.0292  9.70814  -8.38317
v  73.5629  19.8451  -6.12968
v  80.2446  28.3457  -5.10536
v  79.6227  29.5449  -1.10804
v  81.1329  29.9446  -1.10804
v  81.577  29.5449  -1.10804
v  80.4222  28.3457  -1.10804
v  82.4767  29.6034  2.63946
v  83.8116  30.0383  2.08983
v  83.8515  29.6268  1.54019
v  82.1988  28.3457  1.29036
v  88.7555  29.7322  3.88862
v  89.7049  30.2444  3.15578
v  88.8555  29.8072  2.42294
v  86.1073  28.3457  2.08983
v  95.0343  29.8611  2.63946
v  95.5982  30.4505  2.08983
v  93.8594  29.9875  1.54019
v  90.0158  28.3457  1.29036
v  97.8883  29.9196  -1.10804
v  98.2769  30.5442  -1.10804
v  96.1339  30.0695  -1.10804
v  91.7924  28.3457  -1.10804
v  95.0343  29.8611  -4.85553
v  95.5982  30.4505  -4.3059
v  93.8594  29.9875  -3.75626
v  90.0158  28.3457  -3.50643
v  88.7555  29.7322  -6.10469
v  89.7049  30.2444  -5.37185
v  88.8555  29.8072  -4.63901
";
"v  86.1073  28.3457  -4.3059
v  82.4767  29.6034  -4.85553
v  83.8116  30.0383  -4.3059
v  83.8515  29.6268  -3.75626
v  82.1988  28.3457  -3.50643
v  0.831025  49.6647  -1.10804
v  10.5134  48.2657  -1.10804
v  10.0693  44.868  -1.10804
v  6.42728  40.6708  -1.10804
v  6.51611  36.8733  -1.10804
v  9.76642  48.2657  2.70243
v  9.35632  44.868  2.52698
v  5.9947  40.6708  1.09187
v  6.07552  36.8733  1.12336
v  7.71453  48.2657  5.77547
v  7.39819  44.868  5.45913
v  4.80736  40.6708  2.8683
v  4.86744  36.8733  2.92838
v  4.64149  48.2657  7.82736
v  4.46604  44.868  7.41726
v  3.03093  40.6708  4.05564
v  3.06242  36.8733  4.13646
v  0.831025  48.2657  8.57438
v  0.831025  44.868  8.13023
v  0.831025  40.6708  4.48822
v  0.831025  36.8733  4.57705
v  -2.97944  48.2657  7.82736
v  -2.80399  44.868  7.41726
v  -1.36888  40.6708  4.05564
v  -1.40037  36.8733  4.13646
v  -6.05248  48.2657  5.77547
v  -5.73614  44.868  5.45913
v  -3.14531  40.6708  2.8683
v  -3.20539  36.8733  2.92838
v  -8.10437  48.2657  2.70243
v  -7.69427  44.868  2.52698
v  -4.33265  40.6708  1.09187
v  -4.41347  36.8733  1.12336
v  -8.85139  48.2657  -1.10804
v  -8.40724  44.868  -1.10804
v  -4.76523  40.6708  -1.10804
v  -4.85406  36.8733  -1.10804
v  -8.10437  48.2657  -4.9185
v  -7.69427  44.868  -4.74305
v  -4.33265  40.6708  -3.30794
v  -4.41347  36.8733  -3.33943
v  -6.05248  48.2657  -7.99154
v  -5.73614  44.868  -7.6752
v  -3.14531  40.6708  -5.08437
v  -3.20539  36.8733  -5.14445
v  -2.97944  48.2657  -10.0434
v  -2.80399  44.868  -9.63333
v  -1.36888  40.6708  -6.27171
v  -1.40037  36.8733  -6.35253
v  0.831025  48.2657  -10.7904
v  0.831025  44.868  -10.3463
v  0.831025  40.6708  -6.70429
v  0.831025  36.8733  -6.79312
v  4.64149  48.2657  -10.0434
v  4.46604  44.868  -9.63333
v  3.03093  40.6708  -6.27171
v  3.06242  36.8733  -6.35253
v  7.71453  48.2657  -7.99154
v  7.39819  44.868  -7.6752
v  4.80736  40.6708  -5.08437
v  4.86744  36.8733  -5.14445
v  9.76642  48.2657  -4.9185
v  9.35632  44.868  -4.74305
v  5.9947  40.6708  -3.30794
v  6.07552  36.8733  -3.33943
v  13.8001  34.3417  -1.10804
v  24.282  32.6095  -1.10804
v  33.6979  30.8773  -1.10804
v  37.7841  28.3457  -1.10804
v  12.795  34.3417  3.98234
v  22.4646  32.6095  8.09647
v  31.1507  30.8773  11.7922
v  34.9202  28.3457  13.396
v  10.0391  34.3417  8.10003
v  17.4812  32.6095  15.5422
v  24.1665  30.8773  22.2275
v  27.0677  28.3457  25.1286
v  5.9214  34.3417  10.856
v  10.0355  32.6095  20.5255
v  13.7313  30.8773  29.2117
v  15.3351  28.3457  32.9812
v  0.831025  34.3417  11.8611
v  0.831025  32.6095  22.3429
v  0.831025  30.8773  31.7589
v  0.831025  28.3457  35.845
v  -4.25935  34.3417  10.856
v  -8.37348  32.6095  20.5255
v  -12.0692  30.8773  29.2117
v  -13.673  28.3457  32.9812
v  -8.37704  34.3417  8.10003
v  -15.8192  32.6095  15.5422
v  -22.5045  30.8773  22.2275
v  -25.4056  28.3457  25.1286
v  -11.133  34.3417  3.98234
v  -20.8025  32.6095  8.09647
";
"v  -29.4887  30.8773  11.7922
v  -33.2582  28.3457  13.396
v  -12.1381  34.3417  -1.10804
v  -22.62  32.6095  -1.10804
v  -32.0359  30.8773  -1.10804
v  -36.122  28.3457  -1.10804
v  -11.133  34.3417  -6.19841
v  -20.8025  32.6095  -10.3125
v  -29.4887  30.8773  -14.0083
v  -33.2582  28.3457  -15.6121
v  -8.37704  34.3417  -10.3161
v  -15.8192  32.6095  -17.7582
v  -22.5045  30.8773  -24.4435
v  -25.4056  28.3457  -27.3447
v  -4.25935  34.3417  -13.072
v  -8.37348  32.6095  -22.7416
v  -12.0692  30.8773  -31.4277
v  -13.673  28.3457  -35.1972
v  0.831025  34.3417  -14.0771
v  0.831025  32.6095  -24.559
v  0.831025  30.8773  -33.9749
v  0.831025  28.3457  -38.0611
v  5.9214  34.3417  -13.072
v  10.0355  32.6095  -22.7416
v  13.7313  30.8773  -31.4277
v  15.3351  28.3457  -35.1972
v  10.0391  34.3417  -10.3161
v  17.4812  32.6095  -17.7582
v  24.1665  30.8773  -24.4435
v  27.0677  28.3457  -27.3447
v  12.795  34.3417  -6.19841
v  22.4646  32.6095  -10.3125
v  31.1507  30.8773  -14.0083
v  34.9202  28.3457  -15.6121

vn  -0.966742  -0.255752  9.97231e-09
vn  -0.966824  0.255443  3.11149e-08
vn  -0.092052  0.995754  4.45989e-08
vn  0.68205  0.731305  0
vn  0.870301  0.492521  -4.87195e-09
vn  -0.893014  -0.256345  -0.369882
vn  -0.893437  0.255997  -0.369102
vn  -0.0838771  0.995843  -0.0355068
vn  0.629724  0.73186  0.260439
vn  0.803725  0.49337  0.332584
vn  -0.683407  -0.256729  -0.683407
vn  -0.683531  0.256067  -0.683531
vn  -0.0649249  0.995776  -0.0649248
vn  0.481398  0.732469  0.481398
vn  0.614804  0.493997  0.614804
vn  -0.369882  -0.256345  -0.893014
vn  -0.369102  0.255997  -0.893437
vn  -0.0355067  0.995843  -0.0838772
vn  0.260439  0.73186  0.629724
vn  0.332584  0.49337  0.803725
vn  -0.00284834  -0.257863  -0.966177
vn  -0.00192311  0.254736  -0.967009
vn  -0.000266114  0.995734  -0.0922702
vn  2.39288e-05  0.731295  0.682061
vn  2.43342e-09  0.492521  0.870301
vn  0.379058  -0.3593  -0.852771
vn  0.37711  0.149086  -0.914091
vn  0.0275022  0.992081  -0.122551
vn  -0.26101  0.726762  0.635367
vn  -0.332485  0.492546  0.804271
vn  0.663548  -0.410791  -0.625264
vn  0.712664  0.0737216  -0.697621
vn  0.0997268  0.987509  -0.121984
vn  -0.48732  0.723754  0.488568
vn  -0.615242  0.492602  0.615484
vn  0.880028  -0.332908  -0.338709
vn  0.917276  0.167113  -0.361493
vn  0.113584  0.992365  -0.0480695
vn  -0.63415  0.727508  0.261889
vn  -0.804126  0.492634  0.332705
vn  0.96669  -0.255738  0.0104537
vn  0.967442  0.252962  0.00810329
vn  0.0934365  0.995624  0.00128063
vn  -0.682167  0.731196  -0.00034353
vn  -0.870322  0.492483  -5.42436e-05
vn  0.893014  -0.256345  0.369882
vn  0.893437  0.255997  0.369102
vn  0.0838768  0.995843  0.0355066
vn  -0.629724  0.73186  -0.260439
vn  -0.803725  0.49337  -0.332584
vn  0.683407  -0.256729  0.683407
vn  0.683531  0.256067  0.683531
vn  0.0649249  0.995776  0.0649249
vn  -0.481398  0.732469  -0.481398
vn  -0.614804  0.493997  -0.614804
vn  0.369882  -0.256345  0.893014
vn  0.369102  0.255997  0.893437
vn  0.0355067  0.995843  0.083877
vn  -0.260439  0.73186  -0.629724
vn  -0.332584  0.49337  -0.803725
vn  3.83985e-09  -0.255752  0.966742
vn  2.59359e-09  0.255443  0.966824
vn  3.99081e-08  0.995754  0.092052
vn  1.03862e-08  0.731305  -0.68205
vn  -2.43342e-09  0.492521  -0.870301
";
"vn  -0.369882  -0.256345  0.893014
vn  -0.369102  0.255996  0.893437
vn  -0.0355068  0.995843  0.0838771
vn  0.260439  0.73186  -0.629724
vn  0.332584  0.49337  -0.803725
vn  -0.683407  -0.256729  0.683407
vn  -0.683531  0.256067  0.683531
vn  -0.0649249  0.995776  0.064925
vn  0.481398  0.732469  -0.481398
vn  0.614804  0.493997  -0.614804
vn  -0.893014  -0.256345  0.369882
vn  -0.893437  0.255997  0.369102
vn  -0.0838767  0.995843  0.0355066
vn  0.629724  0.73186  -0.260439
vn  0.803725  0.49337  -0.332584
vn  0.915321  0.402725  4.83311e-09
vn  0.941808  0.336151  -4.85769e-09
vn  0.97869  0.205342  4.90003e-09
vn  0.997804  -0.0662397  1.0073e-08
vn  0.845438  0.403546  0.349835
vn  0.869996  0.336859  0.360047
vn  0.904193  0.205791  0.37428
vn  0.921879  -0.0663697  0.381752
vn  0.646802  0.404096  0.646802
vn  0.665655  0.337351  0.665655
vn  0.691923  0.20612  0.691923
vn  0.705542  -0.0664796  0.705543
vn  0.349835  0.403546  0.845438
vn  0.360047  0.336859  0.869996
vn  0.37428  0.205791  0.904193
vn  0.381752  -0.0663697  0.921879
vn  -1.31462e-09  0.402725  0.915321
vn  9.76689e-10  0.336151  0.941808
vn  -1.9304e-08  0.205342  0.97869
vn  -2.15056e-08  -0.0662397  0.997804
vn  -0.349835  0.403546  0.845438
vn  -0.360047  0.336859  0.869996
vn  -0.37428  0.205791  0.904193
vn  -0.381752  -0.0663697  0.921879
vn  -0.646802  0.404096  0.646802
vn  -0.665655  0.337351  0.665655
vn  -0.691923  0.20612  0.691923
vn  -0.705543  -0.0664796  0.705543
vn  -0.845438  0.403546  0.349835
vn  -0.869996  0.336859  0.360047
vn  -0.904193  0.205791  0.37428
vn  -0.921879  -0.0663697  0.381752
vn  -0.915321  0.402725  -2.41655e-09
vn  -0.941808  0.336151  -1.21442e-08
vn  -0.97869  0.205342  -3.18502e-08
vn  -0.997804  -0.0662397  -2.26643e-08
vn  -0.845438  0.403546  -0.349835
vn  -0.869996  0.336859  -0.360047
vn  -0.904193  0.205791  -0.37428
vn  -0.921879  -0.0663697  -0.381752
vn  -0.646802  0.404096  -0.646802
vn  -0.665655  0.337351  -0.665655
vn  -0.691923  0.20612  -0.691923
vn  -0.705542  -0.0664796  -0.705543
vn  -0.349835  0.403546  -0.845438
vn  -0.360047  0.336859  -0.869996
vn  -0.37428  0.205791  -0.904193
vn  -0.381752  -0.0663697  -0.921879
vn  1.31462e-09  0.402725  -0.915321
vn  -9.76689e-10  0.336151  -0.941808
vn  1.9304e-08  0.205342  -0.97869
vn  2.15056e-08  -0.0662397  -0.997804
vn  0.349835  0.403546  -0.845438
vn  0.360047  0.336859  -0.869996
vn  0.37428  0.205791  -0.904193
vn  0.381752  -0.0663697  -0.921879
vn  0.646802  0.404096  -0.646802
vn  0.665655  0.337351  -0.665655
vn  0.691923  0.20612  -0.691923
vn  0.705543  -0.0664796  -0.705542
vn  0.845438  0.403546  -0.349835
vn  0.869996  0.336859  -0.360047
vn  0.904193  0.205791  -0.37428
vn  0.921879  -0.0663697  -0.381752
vn  0.900182  -0.435513  -1.50883e-08
vn  0.729611  -0.683863  -9.71212e-09
vn  0.693951  -0.720022  -9.54282e-09
vn  0.79395  -0.607984  2.6277e-08
vn  0.831437  -0.43618  0.344179
vn  0.673512  -0.684665  0.278594
vn  0.640399  -0.720924  0.264874
vn  0.732949  -0.608996  0.303166
vn  0.636092  -0.436777  0.636092
vn  0.514965  -0.685289  0.514965
vn  0.489651  -0.721446  0.489651
vn  0.560555  -0.609554  0.560555
vn  0.344179  -0.43618  0.831437
vn  0.278594  -0.684665  0.673512
vn  0.264874  -0.720924  0.640399
vn  0.303166  -0.608996  0.732949
vn  1.18057e-08  -0.435513  0.900182
vn  -4.75784e-09  -0.683863  0.729611
vn  9.10217e-09  -0.720022  0.693951
vn  -2.68996e-08  -0.607984  0.79395
vn  -0.344179  -0.43618  0.831437
";
"vn  -0.278594  -0.684665  0.673512
vn  -0.264874  -0.720924  0.640399
vn  -0.303166  -0.608996  0.732949
vn  -0.636092  -0.436777  0.636092
vn  -0.514965  -0.685289  0.514965
vn  -0.489651  -0.721446  0.489651
vn  -0.560555  -0.609554  0.560555
vn  -0.831437  -0.43618  0.344179
vn  -0.673512  -0.684665  0.278595
vn  -0.640399  -0.720924  0.264874
vn  -0.732949  -0.608996  0.303166
vn  -0.900182  -0.435513  -7.54414e-09
vn  -0.729611  -0.683863  -7.28409e-09
vn  -0.693951  -0.720022  4.77141e-09
vn  -0.79395  -0.607983  -2.6277e-08
vn  -0.831437  -0.43618  -0.344179
vn  -0.673512  -0.684665  -0.278594
vn  -0.640399  -0.720924  -0.264874
vn  -0.732949  -0.608996  -0.303166
vn  -0.636092  -0.436777  -0.636092
vn  -0.514965  -0.685289  -0.514965
vn  -0.489651  -0.721446  -0.489651
vn  -0.560555  -0.609554  -0.560555
vn  -0.344179  -0.43618  -0.831437
vn  -0.278594  -0.684665  -0.673512
vn  -0.264874  -0.720924  -0.640399
vn  -0.303166  -0.608996  -0.732949
vn  -1.18057e-08  -0.435513  -0.900182
vn  4.75784e-09  -0.683863  -0.729611
vn  -9.10217e-09  -0.720022  -0.693951
vn  2.68996e-08  -0.607984  -0.79395
vn  0.344179  -0.43618  -0.831437
vn  0.278594  -0.684665  -0.673512
vn  0.264874  -0.720924  -0.640399
vn  0.303167  -0.608996  -0.732949
vn  0.636092  -0.436777  -0.636092
vn  0.514965  -0.685289  -0.514965
vn  0.489651  -0.721446  -0.489651
vn  0.560555  -0.609554  -0.560555
vn  0.831437  -0.43618  -0.344179
vn  0.673512  -0.684665  -0.278595
vn  0.640399  -0.720924  -0.264874
vn  0.732949  -0.608996  -0.303166
vn  0.62386  -0.781536  3.04248e-08
vn  0.177291  -0.984159  -3.28321e-09
vn  0.0492072  -0.998789  1.48326e-09
vn  1.94668e-11  -1  -7.78368e-10
vn  0.576229  -0.781801  0.238217
vn  0.163629  -0.984208  0.0675273
vn  0.0454217  -0.998792  0.0187357
vn  0.440416  -0.782348  0.440416
vn  0.124903  -0.984276  0.124903
vn  0.0346621  -0.998798  0.0346621
vn  0.238217  -0.781801  0.576229
vn  0.0675273  -0.984208  0.163629
vn  0.0187357  -0.998792  0.0454217
vn  -3.18434e-08  -0.781536  0.62386
vn  3.33958e-09  -0.984159  0.177291
vn  -1.80438e-09  -0.998789  0.0492072
vn  -0.238216  -0.781801  0.576229
vn  -0.0675273  -0.984208  0.163629
vn  -0.0187357  -0.998792  0.0454217
vn  -0.440416  -0.782348  0.440416
vn  -0.124903  -0.984276  0.124903
vn  -0.0346621  -0.998798  0.0346621
vn  -0.576229  -0.781801  0.238217
vn  -0.163629  -0.984208  0.0675273
vn  -0.0454217  -0.998792  0.0187357
vn  -0.62386  -0.781536  -3.17476e-08
vn  -0.177291  -0.984159  3.13397e-09
vn  -0.0492072  -0.998789  -1.33493e-09
vn  -0.576229  -0.781801  -0.238217
vn  -0.163629  -0.984208  -0.0675273
vn  -0.0454217  -0.998792  -0.0187357
vn  -0.440416  -0.782348  -0.440416
vn  -0.124903  -0.984276  -0.124903
vn  -0.0346621  -0.998798  -0.0346621
vn  -0.238217  -0.781801  -0.576229
vn  -0.0675273  -0.984208  -0.163629
vn  -0.0187357  -0.998792  -0.0454217
vn  3.18434e-08  -0.781536  -0.62386
vn  -3.28168e-09  -0.984159  -0.177291
vn  1.46144e-09  -0.998789  -0.0492072
vn  0.238217  -0.781801  -0.576229
vn  0.0675273  -0.984208  -0.163629
vn  0.0187357  -0.998792  -0.0454217
vn  0.440416  -0.782348  -0.440416
vn  0.124903  -0.984276  -0.124903
vn  0.0346621  -0.998798  -0.0346621
vn  0.576229  -0.781801  -0.238217
vn  0.163629  -0.984208  -0.0675273
vn  0.0454217  -0.998792  -0.0187357
vn  0.00778619  -0.99997  -0.000215809
vn  0.0391385  -0.999233  -0.000988567
vn  0.179511  -0.983746  -0.00436856
vn  0.6123  -0.790556  -0.0104598
vn  0.986152  -0.165707  -0.00666949
vn  0.00703893  -0.812495  0.582926
vn  0.0361273  -0.837257  0.545614
vn  0.161845  -0.810421  0.563048
";
"vn  0.482365  -0.595148  0.642746
vn  0.73872  -0.114593  0.664199
vn  -0.00190867  0.162121  0.986769
vn  0.0027616  0.0171073  0.99985
vn  0.0105326  0.0733989  0.997247
vn  -0.0660406  0.130069  0.989303
vn  -0.0944272  0.0165946  0.995393
vn  -0.009203  0.871509  0.490293
vn  -0.0486064  0.840609  0.539457
vn  -0.223298  0.802881  0.552739
vn  -0.596365  0.559971  0.575135
vn  -0.803337  0.0682361  0.591602
vn  -0.0105609  0.999944  0.000103364
vn  -0.0587986  0.99827  0.000709759
vn  -0.28071  0.959787  0.00326876
vn  -0.749723  0.661738  0.0042684
vn  -0.997351  0.0727144  0.00205923
vn  -0.00879197  0.871493  -0.49033
vn  -0.0464937  0.841178  -0.538756
vn  -0.217909  0.806807  -0.549161
vn  -0.597291  0.560026  -0.574121
vn  -0.804  0.0629127  -0.591291
vn  -0.00180555  0.161691  -0.98684
vn  0.00203087  0.014555  -0.999892
vn  0.00921499  0.0600698  -0.998152
vn  -0.0593333  0.113865  -0.991723
vn  -0.0868992  0.0122903  -0.996141
vn  0.00641779  -0.812379  -0.583094
vn  0.0337833  -0.837512  -0.545373
vn  0.157112  -0.811947  -0.56219
vn  0.484407  -0.589365  -0.646528
vn  0.73887  -0.10132  -0.666187
vn  0.946512  0.32265  -0.0033571
vn  0.82583  0.56387  -0.00745213
vn  0.650011  0.759893  -0.00693681
vn  0.532429  0.846458  -0.00524544
vn  0.725608  0.259351  0.637362
vn  0.645945  0.461988  0.607719
vn  0.531614  0.63666  0.558615
vn  0.424964  0.681717  0.59554
vn  -0.0495616  -0.019755  0.998576
vn  -0.0378162  -0.0356243  0.99865
vn  -0.0379139  -0.0365122  0.998614
vn  -0.168854  -0.297946  0.93953
vn  -0.742342  -0.299166  0.599523
vn  -0.619602  -0.529406  0.579503
vn  -0.483708  -0.685761  0.543837
vn  -0.445293  -0.794355  0.413176
vn  -0.926513  -0.376257  0.00199587
vn  -0.75392  -0.656952  0.00431723
vn  -0.566224  -0.824244  0.00346105
vn  -0.481804  -0.876277  0.00185047
vn  -0.744675  -0.294424  -0.598977
vn  -0.621949  -0.528114  -0.578165
vn  -0.481171  -0.68834  -0.542828
vn  -0.438055  -0.797035  -0.415744
vn  -0.0443368  -0.0170558  -0.998871
vn  -0.0261761  -0.0281665  -0.99926
vn  -0.0252939  -0.0283323  -0.999278
vn  -0.157482  -0.289392  -0.944167
vn  0.728244  0.25241  -0.637142
vn  0.647055  0.459725  -0.608254
vn  0.522994  0.640657  -0.562171
vn  0.409978  0.682857  -0.604669
vn  -0.230787  0.972982  -0.00652338
vn  -0.548936  0.835863  -0.00151111
vn  -0.875671  0.482807  0.00989278
vn  -0.877554  0.479097  0.0190923
vn  -0.69619  0.717439  0.024497
vn  -0.152878  0.687211  0.71019
vn  -0.316721  0.63775  0.702113
vn  -0.601067  0.471452  0.64533
vn  -0.635889  0.44609  0.6298
vn  -0.435746  0.601008  0.670011
vn  0.111112  -0.0850694  0.99016
vn  0.22331  0.00654036  0.974726
vn  0.190097  0.154964  0.969458
vn  0.00527077  0.189482  0.98187
vn  -0.0117518  0.246688  0.969024
vn  0.343906  -0.722796  0.599412
vn  0.572489  -0.567656  0.591627
vn  0.787436  -0.256459  0.560512
vn  0.647097  -0.306374  0.698141
vn  0.427528  -0.499343  0.753576
vn  0.410926  -0.911668  0.00128446
vn  0.67152  -0.740986  -0.000899122
vn  0.922026  -0.38706  -0.00725269
vn  0.84691  -0.531556  -0.0138542
vn  0.535925  -0.8442  -0.0105045
vn  0.341188  -0.722822  -0.600931
vn  0.578664  -0.561139  -0.591838
vn  0.784869  -0.25102  -0.566542
vn  0.642681  -0.302257  -0.70399
vn  0.418589  -0.500042  -0.758117
vn  0.115806  -0.0791394  -0.990114
vn  0.232811  0.0125652  -0.972441
vn  0.206662  0.153601  -0.96628
vn  0.0244996  0.161443  -0.986578
vn  0.00338193  0.211115  -0.977455
vn  -0.134912  0.687491  -0.713551
";
"vn  -0.31954  0.633073  -0.705062
vn  -0.603902  0.461442  -0.649903
vn  -0.631816  0.437169  -0.640072
vn  -0.424306  0.612706  -0.66675
vn  -0.4258  0.904753  0.0108049
vn  0.0220472  0.999756  0.00162273
vn  0.999599  0.0258705  0.0115556
vn  0.709585  -0.704553  0.00967183
vn  -0.259858  0.791936  0.552549
vn  0.00953916  0.99972  -0.0216718
vn  0.410156  0.332912  -0.849083
vn  0.541523  -0.54862  -0.637
vn  0.0463104  0.455224  0.889172
vn  -0.0106883  0.988794  0.148901
vn  -0.0443756  0.682947  -0.729118
vn  0.122825  0.00923214  -0.992385
vn  0.481839  -0.180439  0.85748
vn  0.455272  0.736752  0.499925
vn  -0.220542  0.907193  -0.358276
vn  -0.23592  0.657249  -0.715797
vn  0.728092  -0.685302  -0.0155853
vn  0.888739  0.45811  -0.0166791
vn  -0.260097  0.965582  0.000800195
vn  -0.371612  0.928378  -0.00441745
vn  0.480166  -0.17836  -0.858853
vn  0.488103  0.716801  -0.497947
vn  -0.222004  0.905399  0.361893
vn  -0.235405  0.66318  0.710477
vn  0.0587203  0.437704  -0.8972
vn  0.00132612  0.986459  -0.164003
vn  -0.0441901  0.681677  0.730317
vn  0.138801  -0.0341896  0.98973
vn  -0.25889  0.797206  -0.54538
vn  0.0122703  0.999739  0.0192865
vn  0.39863  0.35489  0.845663
vn  0.537564  -0.5814  0.610737
vn  -7.79193e-10  1  6.50944e-09
vn  0.82454  0.565804  1.72913e-05
vn  0.917701  -0.397272  3.35502e-05
vn  0.935269  -0.353939  0.000112842
vn  0.780712  0.624891  7.51916e-05
vn  0.762641  0.565035  0.314825
vn  0.847982  -0.397998  0.350034
vn  0.864141  -0.355261  0.356441
vn  0.720991  0.625625  0.297933
vn  0.583357  0.565165  0.583338
vn  0.648485  -0.398726  0.648448
vn  0.660872  -0.355894  0.660748
vn  0.551862  0.62529  0.55178
vn  0.314824  0.565051  0.762629
vn  0.350045  -0.397976  0.847988
vn  0.356474  -0.3552  0.864153
vn  0.297983  0.625515  0.721067
vn  -1.7299e-05  0.565804  0.82454
vn  -3.35448e-05  -0.397272  0.917701
vn  -0.000112839  -0.353939  0.935269
vn  -7.51869e-05  0.624891  0.780712
vn  -0.314825  0.565035  0.762641
vn  -0.350034  -0.397998  0.847982
vn  -0.356441  -0.355261  0.864141
vn  -0.297933  0.625625  0.720991
vn  -0.583338  0.565165  0.583357
vn  -0.648448  -0.398726  0.648485
vn  -0.660748  -0.355894  0.660872
vn  -0.55178  0.62529  0.551862
vn  -0.762629  0.565051  0.314824
vn  -0.847988  -0.397976  0.350045
vn  -0.864153  -0.3552  0.356474
vn  -0.721067  0.625515  0.297983
vn  -0.82454  0.565804  -1.72877e-05
vn  -0.917701  -0.397272  -3.35262e-05
vn  -0.935269  -0.353939  -0.000112839
vn  -0.780712  0.624891  -7.51882e-05
vn  -0.76264  0.565035  -0.314825
vn  -0.847982  -0.397998  -0.350034
vn  -0.864141  -0.355261  -0.356441
vn  -0.720991  0.625625  -0.297933
vn  -0.583357  0.565165  -0.583338
vn  -0.648485  -0.398726  -0.648448
vn  -0.660872  -0.355894  -0.660748
vn  -0.551862  0.62529  -0.55178
vn  -0.314824  0.565051  -0.762629
vn  -0.350045  -0.397976  -0.847988
vn  -0.356474  -0.3552  -0.864153
vn  -0.297983  0.625515  -0.721067
vn  1.72918e-05  0.565804  -0.82454
vn  3.35344e-05  -0.397272  -0.917701
vn  0.000112839  -0.353939  -0.935269
vn  7.51869e-05  0.624891  -0.780712
vn  0.314825  0.565035  -0.762641
vn  0.350034  -0.397998  -0.847982
vn  0.356441  -0.355261  -0.864141
vn  0.297933  0.625625  -0.720991
vn  0.583338  0.565165  -0.583357
vn  0.648448  -0.398726  -0.648485
vn  0.660748  -0.355894  -0.660872
vn  0.55178  0.62529  -0.551862
vn  0.762629  0.565051  -0.314824
vn  0.847988  -0.397976  -0.350045
vn  0.864153  -0.3552  -0.356474
";
"vn  0.721067  0.625515  -0.297983
vn  0.236584  0.971611  8.31862e-09
vn  0.173084  0.984907  -1.18677e-09
vn  0.379703  0.925108  2.44118e-09
vn  0.526673  0.850068  2.66504e-09
vn  0.217978  0.971775  0.0902162
vn  0.15959  0.984977  0.0659615
vn  0.350498  0.925312  0.14474
vn  0.48559  0.850653  0.201474
vn  0.166631  0.971838  0.166631
vn  0.121908  0.985026  0.121908
vn  0.267668  0.925585  0.267668
vn  0.371315  0.851029  0.371315
vn  0.0902162  0.971775  0.217978
vn  0.0659615  0.984977  0.15959
vn  0.14474  0.925312  0.350498
vn  0.201474  0.850653  0.48559
vn  -8.2649e-09  0.971611  0.236584
vn  1.37744e-09  0.984907  0.173084
vn  2.79781e-10  0.925108  0.379703
vn  2.55497e-09  0.850068  0.526673
vn  -0.0902162  0.971775  0.217978
vn  -0.0659615  0.984977  0.15959
vn  -0.14474  0.925312  0.350498
vn  -0.201474  0.850653  0.48559
vn  -0.166631  0.971838  0.166631
vn  -0.121908  0.985026  0.121908
vn  -0.267668  0.925585  0.267668
vn  -0.371315  0.851029  0.371315
vn  -0.217978  0.971775  0.0902162
vn  -0.15959  0.984977  0.0659615
vn  -0.350498  0.925312  0.14474
vn  -0.48559  0.850653  0.201474
vn  -0.236583  0.971611  -6.23897e-09
vn  -0.173084  0.984907  2.37354e-09
vn  -0.379703  0.925108  -2.44118e-09
vn  -0.526673  0.850068  0
vn  -0.217978  0.971775  -0.0902162
vn  -0.15959  0.984977  -0.0659615
vn  -0.350498  0.925312  -0.14474
vn  -0.48559  0.850653  -0.201474
vn  -0.166631  0.971838  -0.166631
vn  -0.121908  0.985026  -0.121908
vn  -0.267668  0.925585  -0.267668
vn  -0.371315  0.851029  -0.371315
vn  -0.0902162  0.971775  -0.217978
vn  -0.0659615  0.984977  -0.15959
vn  -0.14474  0.925312  -0.350498
vn  -0.201474  0.850653  -0.485589
vn  6.16189e-09  0.971611  -0.236584
vn  -1.37744e-09  0.984907  -0.173084
vn  -2.79781e-10  0.925108  -0.379703
vn  -2.55497e-09  0.850068  -0.526673
vn  0.0902162  0.971775  -0.217978
vn  0.0659615  0.984977  -0.15959
vn  0.14474  0.925312  -0.350498
vn  0.201474  0.850653  -0.48559
vn  0.166631  0.971838  -0.166631
vn  0.121908  0.985026  -0.121908
vn  0.267668  0.925585  -0.267668
vn  0.371315  0.851029  -0.371315
vn  0.217978  0.971775  -0.0902162
vn  0.15959  0.984977  -0.0659615
vn  0.350498  0.925312  -0.14474
vn  0.48559  0.850653  -0.201474

f  7  6  1
f  1  2  7
f  8  7  2
f  2  3  8
f  9  8  3
f  3  4  9
f  10  9  4
f  4  5  10
f  12  11  6
f  6  7  12
f  13  12  7
f  7  8  13
f  14  13  8
f  8  9  14
f  15  14  9
f  9  10  15
f  17  16  11
f  11  12  17
f  18  17  12
f  12  13  18
f  19  18  13
f  13  14  19
f  20  19  14
f  14  15  20
f  22  21  16
f  16  17  22
f  23  22  17
f  17  18  23
f  24  23  18
f  18  19  24
f  25  24  19
f  19  20  25
f  27  26  21
f  21  22  27
";
"f  28  27  22
f  22  23  28
f  29  28  23
f  23  24  29
f  30  29  24
f  24  25  30
f  32  31  26
f  26  27  32
f  33  32  27
f  27  28  33
f  34  33  28
f  28  29  34
f  35  34  29
f  29  30  35
f  37  36  31
f  31  32  37
f  38  37  32
f  32  33  38
f  39  38  33
f  33  34  39
f  40  39  34
f  34  35  40
f  42  41  36
f  36  37  42
f  43  42  37
f  37  38  43
f  44  43  38
f  38  39  44
f  45  44  39
f  39  40  45
f  47  46  41
f  41  42  47
f  48  47  42
f  42  43  48
f  49  48  43
f  43  44  49
f  50  49  44
f  44  45  50
f  52  51  46
f  46  47  52
f  53  52  47
f  47  48  53
f  54  53  48
f  48  49  54
f  55  54  49
f  49  50  55
f  57  56  51
f  51  52  57
f  58  57  52
f  52  53  58
f  59  58  53
f  53  54  59
f  60  59  54
f  54  55  60
f  62  61  56
f  56  57  62
f  63  62  57
f  57  58  63
f  64  63  58
f  58  59  64
f  65  64  59
f  59  60  65
f  67  66  61
f  61  62  67
f  68  67  62
f  62  63  68
f  69  68  63
f  63  64  69
f  70  69  64
f  64  65  70
f  72  71  66
f  66  67  72
f  73  72  67
f  67  68  73
f  74  73  68
f  68  69  74
f  75  74  69
f  69  70  75
f  77  76  71
f  71  72  77
f  78  77  72
f  72  73  78
f  79  78  73
f  73  74  79
f  80  79  74
f  74  75  80
f  2  1  76
f  76  77  2
f  3  2  77
f  77  78  3
f  4  3  78
f  78  79  4
f  5  4  79
f  79  80  5
f  85  10  5
f  5  81  85
f  86  85  81
f  81  82  86
f  87  86  82
f  82  83  87
";
"f  88  87  83
f  83  84  88
f  89  15  10
f  10  85  89
f  90  89  85
f  85  86  90
f  91  90  86
f  86  87  91
f  92  91  87
f  87  88  92
f  93  20  15
f  15  89  93
f  94  93  89
f  89  90  94
f  95  94  90
f  90  91  95
f  96  95  91
f  91  92  96
f  97  25  20
f  20  93  97
f  98  97  93
f  93  94  98
f  99  98  94
f  94  95  99
f  100  99  95
f  95  96  100
f  101  30  25
f  25  97  101
f  102  101  97
f  97  98  102
f  103  102  98
f  98  99  103
f  104  103  99
f  99  100  104
f  105  35  30
f  30  101  105
f  106  105  101
f  101  102  106
f  107  106  102
f  102  103  107
f  108  107  103
f  103  104  108
f  109  40  35
f  35  105  109
f  110  109  105
f  105  106  110
f  111  110  106
f  106  107  111
f  112  111  107
f  107  108  112
f  113  45  40
f  40  109  113
f  114  113  109
f  109  110  114
f  115  114  110
f  110  111  115
f  116  115  111
f  111  112  116
f  117  50  45
f  45  113  117
f  118  117  113
f  113  114  118
f  119  118  114
f  114  115  119
f  120  119  115
f  115  116  120
f  121  55  50
f  50  117  121
f  122  121  117
f  117  118  122
f  123  122  118
f  118  119  123
f  124  123  119
f  119  120  124
f  125  60  55
f  55  121  125
f  126  125  121
f  121  122  126
f  127  126  122
f  122  123  127
f  128  127  123
f  123  124  128
f  129  65  60
f  60  125  129
f  130  129  125
f  125  126  130
f  131  130  126
f  126  127  131
f  132  131  127
f  127  128  132
f  133  70  65
f  65  129  133
f  134  133  129
f  129  130  134
f  135  134  130
f  130  131  135
f  136  135  131
f  131  132  136
f  137  75  70
f  70  133  137
";
"f  138  137  133
f  133  134  138
f  139  138  134
f  134  135  139
f  140  139  135
f  135  136  140
f  141  80  75
f  75  137  141
f  142  141  137
f  137  138  142
f  143  142  138
f  138  139  143
f  144  143  139
f  139  140  144
f  81  5  80
f  80  141  81
f  82  81  141
f  141  142  82
f  83  82  142
f  142  143  83
f  84  83  143
f  143  144  84
f  149  88  84
f  84  145  149
f  150  149  145
f  145  146  150
f  151  150  146
f  146  147  151
f  152  151  147
f  147  148  152
f  153  92  88
f  88  149  153
f  154  153  149
f  149  150  154
f  155  154  150
f  150  151  155
f  156  155  151
f  151  152  156
f  157  96  92
f  92  153  157
f  158  157  153
f  153  154  158
f  159  158  154
f  154  155  159
f  160  159  155
f  155  156  160
f  161  100  96
f  96  157  161
f  162  161  157
f  157  158  162
f  163  162  158
f  158  159  163
f  164  163  159
f  159  160  164
f  165  104  100
f  100  161  165
f  166  165  161
f  161  162  166
f  167  166  162
f  162  163  167
f  168  167  163
f  163  164  168
f  169  108  104
f  104  165  169
f  170  169  165
f  165  166  170
f  171  170  166
f  166  167  171
f  172  171  167
f  167  168  172
f  173  112  108
f  108  169  173
f  174  173  169
f  169  170  174
f  175  174  170
f  170  171  175
f  176  175  171
f  171  172  176
f  177  116  112
f  112  173  177
f  178  177  173
f  173  174  178
f  179  178  174
f  174  175  179
f  180  179  175
f  175  176  180
f  181  120  116
f  116  177  181
f  182  181  177
f  177  178  182
f  183  182  178
f  178  179  183
f  184  183  179
f  179  180  184
f  185  124  120
f  120  181  185
f  186  185  181
f  181  182  186
f  187  186  182
f  182  183  187
";
"f  188  187  183
f  183  184  188
f  189  128  124
f  124  185  189
f  190  189  185
f  185  186  190
f  191  190  186
f  186  187  191
f  192  191  187
f  187  188  192
f  193  132  128
f  128  189  193
f  194  193  189
f  189  190  194
f  195  194  190
f  190  191  195
f  196  195  191
f  191  192  196
f  197  136  132
f  132  193  197
f  198  197  193
f  193  194  198
f  199  198  194
f  194  195  199
f  200  199  195
f  195  196  200
f  201  140  136
f  136  197  201
f  202  201  197
f  197  198  202
f  203  202  198
f  198  199  203
f  204  203  199
f  199  200  204
f  205  144  140
f  140  201  205
f  206  205  201
f  201  202  206
f  207  206  202
f  202  203  207
f  208  207  203
f  203  204  208
f  145  84  144
f  144  205  145
f  146  145  205
f  205  206  146
f  147  146  206
f  206  207  147
f  148  147  207
f  207  208  148
f  213  152  148
f  148  209  213
f  214  213  209
f  209  210  214
f  215  214  210
f  210  211  215
f  212  215  211
f  211  212  212
f  216  156  152
f  152  213  216
f  217  216  213
f  213  214  217
f  218  217  214
f  214  215  218
f  212  218  215
f  215  212  212
f  219  160  156
f  156  216  219
f  220  219  216
f  216  217  220
f  221  220  217
f  217  218  221
f  212  221  218
f  218  212  212
f  222  164  160
f  160  219  222
f  223  222  219
f  219  220  223
f  224  223  220
f  220  221  224
f  212  224  221
f  221  212  212
f  225  168  164
f  164  222  225
f  226  225  222
f  222  223  226
f  227  226  223
f  223  224  227
f  212  227  224
f  224  212  212
f  228  172  168
f  168  225  228
f  229  228  225
f  225  226  229
f  230  229  226
f  226  227  230
f  212  230  227
f  227  212  212
f  231  176  172
f  172  228  231
";
"f  232  231  228
f  228  229  232
f  233  232  229
f  229  230  233
f  212  233  230
f  230  212  212
f  234  180  176
f  176  231  234
f  235  234  231
f  231  232  235
f  236  235  232
f  232  233  236
f  212  236  233
f  233  212  212
f  237  184  180
f  180  234  237
f  238  237  234
f  234  235  238
f  239  238  235
f  235  236  239
f  212  239  236
f  236  212  212
f  240  188  184
f  184  237  240
f  241  240  237
f  237  238  241
f  242  241  238
f  238  239  242
f  212  242  239
f  239  212  212
f  243  192  188
f  188  240  243
f  244  243  240
f  240  241  244
f  245  244  241
f  241  242  245
f  212  245  242
f  242  212  212
f  246  196  192
f  192  243  246
f  247  246  243
f  243  244  247
f  248  247  244
f  244  245  248
f  212  248  245
f  245  212  212
f  249  200  196
f  196  246  249
f  250  249  246
f  246  247  250
f  251  250  247
f  247  248  251
f  212  251  248
f  248  212  212
f  252  204  200
f  200  249  252
f  253  252  249
f  249  250  253
f  254  253  250
f  250  251  254
f  212  254  251
f  251  212  212
f  255  208  204
f  204  252  255
f  256  255  252
f  252  253  256
f  257  256  253
f  253  254  257
f  212  257  254
f  254  212  212
f  209  148  208
f  208  255  209
f  210  209  255
f  255  256  210
f  211  210  256
f  256  257  211
f  212  211  257
f  257  212  212
f  264  263  258
f  258  259  264
f  265  264  259
f  259  260  265
f  266  265  260
f  260  261  266
f  267  266  261
f  261  262  267
f  269  268  263
f  263  264  269
f  270  269  264
f  264  265  270
f  271  270  265
f  265  266  271
f  272  271  266
f  266  267  272
f  274  273  268
f  268  269  274
f  275  274  269
f  269  270  275
f  276  275  270
f  270  271  276
";
"f  277  276  271
f  271  272  277
f  279  278  273
f  273  274  279
f  280  279  274
f  274  275  280
f  281  280  275
f  275  276  281
f  282  281  276
f  276  277  282
f  284  283  278
f  278  279  284
f  285  284  279
f  279  280  285
f  286  285  280
f  280  281  286
f  287  286  281
f  281  282  287
f  289  288  283
f  283  284  289
f  290  289  284
f  284  285  290
f  291  290  285
f  285  286  291
f  292  291  286
f  286  287  292
f  294  293  288
f  288  289  294
f  295  294  289
f  289  290  295
f  296  295  290
f  290  291  296
f  297  296  291
f  291  292  297
f  259  258  293
f  293  294  259
f  260  259  294
f  294  295  260
f  261  260  295
f  295  296  261
f  262  261  296
f  296  297  262
f  302  267  262
f  262  298  302
f  303  302  298
f  298  299  303
f  304  303  299
f  299  300  304
f  305  304  300
f  300  301  305
f  306  272  267
f  267  302  306
f  307  306  302
f  302  303  307
f  308  307  303
f  303  304  308
f  309  308  304
f  304  305  309
f  310  277  272
f  272  306  310
f  311  310  306
f  306  307  311
f  312  311  307
f  307  308  312
f  313  312  308
f  308  309  313
f  314  282  277
f  277  310  314
f  315  314  310
f  310  311  315
f  316  315  311
f  311  312  316
f  317  316  312
f  312  313  317
f  318  287  282
f  282  314  318
f  319  318  314
f  314  315  319
f  320  319  315
f  315  316  320
f  321  320  316
f  316  317  321
f  322  292  287
f  287  318  322
f  323  322  318
f  318  319  323
f  324  323  319
f  319  320  324
f  325  324  320
f  320  321  325
f  326  297  292
f  292  322  326
f  327  326  322
f  322  323  327
f  328  327  323
f  323  324  328
f  329  328  324
f  324  325  329
f  298  262  297
f  297  326  298
";
"f  299  298  326
f  326  327  299
f  300  299  327
f  327  328  300
f  301  300  328
f  328  329  301
f  336  335  330
f  330  331  336
f  337  336  331
f  331  332  337
f  338  337  332
f  332  333  338
f  339  338  333
f  333  334  339
f  341  340  335
f  335  336  341
f  342  341  336
f  336  337  342
f  343  342  337
f  337  338  343
f  344  343  338
f  338  339  344
f  346  345  340
f  340  341  346
f  347  346  341
f  341  342  347
f  348  347  342
f  342  343  348
f  349  348  343
f  343  344  349
f  351  350  345
f  345  346  351
f  352  351  346
f  346  347  352
f  353  352  347
f  347  348  353
f  354  353  348
f  348  349  354
f  356  355  350
f  350  351  356
f  357  356  351
f  351  352  357
f  358  357  352
f  352  353  358
f  359  358  353
f  353  354  359
f  361  360  355
f  355  356  361
f  362  361  356
f  356  357  362
f  363  362  357
f  357  358  363
f  364  363  358
f  358  359  364
f  366  365  360
f  360  361  366
f  367  366  361
f  361  362  367
f  368  367  362
f  362  363  368
f  369  368  363
f  363  364  369
f  331  330  365
f  365  366  331
f  332  331  366
f  366  367  332
f  333  332  367
f  367  368  333
f  334  333  368
f  368  369  334
f  374  339  334
f  334  370  374
f  375  374  370
f  370  371  375
f  376  375  371
f  371  372  376
f  377  376  372
f  372  373  377
f  378  344  339
f  339  374  378
f  379  378  374
f  374  375  379
f  380  379  375
f  375  376  380
f  381  380  376
f  376  377  381
f  382  349  344
f  344  378  382
f  383  382  378
f  378  379  383
f  384  383  379
f  379  380  384
f  385  384  380
f  380  381  385
f  386  354  349
f  349  382  386
f  387  386  382
f  382  383  387
f  388  387  383
f  383  384  388
";
"f  389  388  384
f  384  385  389
f  390  359  354
f  354  386  390
f  391  390  386
f  386  387  391
f  392  391  387
f  387  388  392
f  393  392  388
f  388  389  393
f  394  364  359
f  359  390  394
f  395  394  390
f  390  391  395
f  396  395  391
f  391  392  396
f  397  396  392
f  392  393  397
f  398  369  364
f  364  394  398
f  399  398  394
f  394  395  399
f  400  399  395
f  395  396  400
f  401  400  396
f  396  397  401
f  370  334  369
f  369  398  370
f  371  370  398
f  398  399  371
f  372  371  399
f  399  400  372
f  373  372  400
f  400  401  373
f  407  402  402
f  402  403  407
f  408  407  403
f  403  404  408
f  409  408  404
f  404  405  409
f  410  409  405
f  405  406  410
f  411  402  402
f  402  407  411
f  412  411  407
f  407  408  412
f  413  412  408
f  408  409  413
f  414  413  409
f  409  410  414
f  415  402  402
f  402  411  415
f  416  415  411
f  411  412  416
f  417  416  412
f  412  413  417
f  418  417  413
f  413  414  418
f  419  402  402
f  402  415  419
f  420  419  415
f  415  416  420
f  421  420  416
f  416  417  421
f  422  421  417
f  417  418  422
f  423  402  402
f  402  419  423
f  424  423  419
f  419  420  424
f  425  424  420
f  420  421  425
f  426  425  421
f  421  422  426
f  427  402  402
f  402  423  427
f  428  427  423
f  423  424  428
f  429  428  424
f  424  425  429
f  430  429  425
f  425  426  430
f  431  402  402
f  402  427  431
f  432  431  427
f  427  428  432
f  433  432  428
f  428  429  433
f  434  433  429
f  429  430  434
f  435  402  402
f  402  431  435
f  436  435  431
f  431  432  436
f  437  436  432
f  432  433  437
f  438  437  433
f  433  434  438
f  439  402  402
f  402  435  439
";
"f  440  439  435
f  435  436  440
f  441  440  436
f  436  437  441
f  442  441  437
f  437  438  442
f  443  402  402
f  402  439  443
f  444  443  439
f  439  440  444
f  445  444  440
f  440  441  445
f  446  445  441
f  441  442  446
f  447  402  402
f  402  443  447
f  448  447  443
f  443  444  448
f  449  448  444
f  444  445  449
f  450  449  445
f  445  446  450
f  451  402  402
f  402  447  451
f  452  451  447
f  447  448  452
f  453  452  448
f  448  449  453
f  454  453  449
f  449  450  454
f  455  402  402
f  402  451  455
f  456  455  451
f  451  452  456
f  457  456  452
f  452  453  457
f  458  457  453
f  453  454  458
f  459  402  402
f  402  455  459
f  460  459  455
f  455  456  460
f  461  460  456
f  456  457  461
f  462  461  457
f  457  458  462
f  463  402  402
f  402  459  463
f  464  463  459
f  459  460  464
f  465  464  460
f  460  461  465
f  466  465  461
f  461  462  466
f  403  402  402
f  402  463  403
f  404  403  463
f  463  464  404
f  405  404  464
f  464  465  405
f  406  405  465
f  465  466  406
f  471  410  406
f  406  467  471
f  472  471  467
f  467  468  472
f  473  472  468
f  468  469  473
f  474  473  469
f  469  470  474
f  475  414  410
f  410  471  475
f  476  475  471
f  471  472  476
f  477  476  472
f  472  473  477
f  478  477  473
f  473  474  478
f  479  418  414
f  414  475  479
f  480  479  475
f  475  476  480
f  481  480  476
f  476  477  481
f  482  481  477
f  477  478  482
f  483  422  418
f  418  479  483
f  484  483  479
f  479  480  484
f  485  484  480
f  480  481  485
f  486  485  481
f  481  482  486
f  487  426  422
f  422  483  487
f  488  487  483
f  483  484  488
f  489  488  484
f  484  485  489
";
"f  490  489  485
f  485  486  490
f  491  430  426
f  426  487  491
f  492  491  487
f  487  488  492
f  493  492  488
f  488  489  493
f  494  493  489
f  489  490  494
f  495  434  430
f  430  491  495
f  496  495  491
f  491  492  496
f  497  496  492
f  492  493  497
f  498  497  493
f  493  494  498
f  499  438  434
f  434  495  499
f  500  499  495
f  495  496  500
f  501  500  496
f  496  497  501
f  502  501  497
f  497  498  502
f  503  442  438
f  438  499  503
f  504  503  499
f  499  500  504
f  505  504  500
f  500  501  505
f  506  505  501
f  501  502  506
f  507  446  442
f  442  503  507
f  508  507  503
f  503  504  508
f  509  508  504
f  504  505  509
f  510  509  505
f  505  506  510
f  511  450  446
f  446  507  511
f  512  511  507
f  507  508  512
f  513  512  508
f  508  509  513
f  514  513  509
f  509  510  514
f  515  454  450
f  450  511  515
f  516  515  511
f  511  512  516
f  517  516  512
f  512  513  517
f  518  517  513
f  513  514  518
f  519  458  454
f  454  515  519
f  520  519  515
f  515  516  520
f  521  520  516
f  516  517  521
f  522  521  517
f  517  518  522
f  523  462  458
f  458  519  523
f  524  523  519
f  519  520  524
f  525  524  520
f  520  521  525
f  526  525  521
f  521  522  526
f  527  466  462
f  462  523  527
f  528  527  523
f  523  524  528
f  529  528  524
f  524  525  529
f  530  529  525
f  525  526  530
f  467  406  466
f  466  527  467
f  468  467  527
f  527  528  468
f  469  468  528
f  528  529  469
f  470  469  529
f  529  530  470
"]).

(** tests/test_obj_parser.rs:33 *)
Definition vertices : list vertex := [
  mkVertex (S754_finite false 5717685644416569 (-47)) (S754_finite false 7978605247347242 (-48)) (S754_finite true 4990168531111604 (-52)) (S754_finite false 4503599627370496 (-52));
  mkVertex (S754_finite false 5639548190881690 (-47)) (S754_finite false 8569308633472224 (-48)) (S754_finite true 4990168531111604 (-52)) (S754_finite false 4503599627370496 (-52));
  mkVertex (S754_finite false 5730197207131357 (-47)) (S754_finite false 8766200379681328 (-48)) (S754_finite true 4990168531111604 (-52)) (S754_finite false 4503599627370496 (-52));
  mkVertex (S754_finite false 5914591464374508 (-47)) (S754_finite false 8569308633472224 (-48)) (S754_finite true 4990168531111604 (-52)) (S754_finite false 4503599627370496 (-52));
  mkVertex (S754_finite false 6117746028815424 (-47)) (S754_finite false 7978605247347242 (-48)) (S754_finite true 4990168531111604 (-52)) (S754_finite false 4503599627370496 (-52));
  mkVertex (S754_finite false 5283637156579901 (-47)) (S754_finite false 7978605247347242 (-48)) (S754_finite false 8169360839064053 (-49)) (S754_finite false 4503599627370496 (-52));
  mkVertex (S754_finite false 5211551415044302 (-47)) (S754_finite false 8569308633472224 (-48)) (S754_finite false 8046694044213549 (-49)) (S754_finite false 4503599627370496 (-52));
  mkVertex (S754_finite false 5295163556876203 (-47)) (S754_finite false 8766200379681328 (-48)) (S754_finite false 8189007792438457 (-49)) (S754_finite false 4503599627370496 (-52));
  mkVertex (S754_finite false 5465272959051288 (-47)) (S754_finite false 8569308633472224 (-48)) (S754_finite false 8478532953483038 (-49)) (S754_finite false 4503599627370496 (-52));
  mkVertex (S754_finite false 5652678998545243 (-47)) (S754_finite false 7978605247347242 (-48)) (S754_finite false 8797444102096211 (-49)) (S754_finite false 4503599627370496 (-52));
  mkVertex (S754_finite false 8186953025108469 (-48)) (S754_finite false 7978605247347242 (-48)) (S754_finite false 7641144897768836 (-48)) (S754_finite false 4503599627370496 (-52));
  mkVertex (S754_finite false 8075995589289129 (-48)) (S754_finite false 8569308633472224 (-48)) (S754_finite false 7530215609447167 (-48)) (S754_finite false 4503599627370496 (-52));
  mkVertex (S754_finite false 8204714096138912 (-48)) (S754_finite false 8766200379681328 (-48)) (S754_finite false 7658905968799279 (-48)) (S754_finite false 4503599627370496 (-52));
  mkVertex (S754_finite false 8466542119475164 (-48)) (S754_finite false 8569308633472224 (-48)) (S754_finite false 7920762139633202 (-48)) (S754_finite false 4503599627370496 (-52));
  mkVertex (S754_finite false 8755025823105915 (-48)) (S754_finite false 7978605247347242 (-48)) (S754_finite false 8209217695766282 (-48)) (S754_finite false 4503599627370496 (-52));
  mkVertex (S754_finite false 4630488546871660 (-48)) (S754_finite false 7978605247347242 (-48)) (S754_finite false 5010733092910085 (-47)) (S754_finite false 4503599627370496 (-52));
  mkVertex (S754_finite false 4569155149446408 (-48)) (S754_finite false 8569308633472224 (-48)) (S754_finite false 4938647351374486 (-47)) (S754_finite false 4503599627370496 (-52));
  mkVertex (S754_finite false 4640312023558862 (-48)) (S754_finite false 8766200379681328 (-48)) (S754_finite false 5022259493206386 (-47)) (S754_finite false 4503599627370496 (-52));
  mkVertex (S754_finite false 4785046456583481 (-48)) (S754_finite false 8569308633472224 (-48)) (S754_finite false 5192368895381471 (-47)) (S754_finite false 4503599627370496 (-52));
  mkVertex (S754_finite false 4944530178387739 (-48)) (S754_finite false 7978605247347242 (-48)) (S754_finite false 5379774934875426 (-47)) (S754_finite false 4503599627370496 (-52));
  mkVertex (S754_finite false 7485207760671133 (-53)) (S754_finite false 7978605247347242 (-48)) (S754_finite false 5444795654495588 (-47)) (S754_finite false 4503599627370496 (-52));
  mkVertex (S754_finite false 7485207760671133 (-53)) (S754_finite false 8569308633472224 (-48)) (S754_finite false 5366658200960709 (-47)) (S754_finite false 4503599627370496 (-52));
  mkVertex (S754_finite false 7485207760671133 (-53)) (S754_finite false 8766200379681328 (-48)) (S754_finite false 5457293143461541 (-47)) (S754_finite false 4503599627370496 (-52));
  mkVertex (S754_finite false 7485207760671133 (-53)) (S754_finite false 8569308633472224 (-48)) (S754_finite false 5641687400704691 (-47)) (S754_finite false 4503599627370496 (-52));
  mkVertex (S754_finite false 7485207760671133 (-53)) (S754_finite false 7978605247347242 (-48)) (S754_finite false 5844841965145607 (-47)) (S754_finite false 4503599627370496 (-52));
  mkVertex (S754_finite true 8932889860889379 (-49)) (S754_finite false 7978605247347242 (-48)) (S754_finite false 5010733092910085 (-47)) (S754_finite false 4503599627370496 (-52));
  mkVertex (S754_finite true 8458998590099318 (-49)) (S754_finite false 8569308633472224 (-48)) (S754_finite false 4938647351374486 (-47)) (S754_finite false 4503599627370496 (-52));
  mkVertex (S754_finite true 8420886878252696 (-49)) (S754_finite false 8766200379681328 (-48)) (S754_finite false 5022259493206386 (-47)) (S754_finite false 4503599627370496 (-52));
  mkVertex (S754_finite true 8643927649798219 (-49)) (S754_finite false 8569308633472224 (-48)) (S754_finite false 5192368895381471 (-47)) (S754_finite false 4503599627370496 (-52));
  mkVertex (S754_finite true 8953381239193915 (-49)) (S754_finite false 7978605247347242 (-48)) (S754_finite false 5379774934875426 (-47)) (S754_finite false 4503599627370496 (-52));
  mkVertex (S754_finite true 7989160558973891 (-48)) (S754_finite false 7978605247347242 (-48)) (S754_finite false 7641144897768836 (-48)) (S754_finite false 4503599627370496 (-52));
  mkVertex (S754_finite true 7722097101070821 (-48)) (S754_finite false 8569308633472224 (-48)) (S754_finite false 7530215609447167 (-48)) (S754_finite false 4503599627370496 (-52));
  mkVertex (S754_finite true 7770623387055738 (-48)) (S754_finite false 8766200379681328 (-48)) (S754_finite false 7658905968799279 (-48)) (S754_finite false 4503599627370496 (-52));
  mkVertex (S754_finite true 8002952832832714 (-48)) (S754_finite false 8569308633472224 (-48)) (S754_finite false 7920762139633202 (-48)) (S754_finite false 4503599627370496 (-52));
  mkVertex (S754_finite true 8287214411812805 (-48)) (S754_finite false 7978605247347242 (-48)) (S754_finite false 8209217695766282 (-48)) (S754_finite false 4503599627370496 (-52));
  mkVertex (S754_finite true 5100354725494758 (-47)) (S754_finite false 7978605247347242 (-48)) (S754_finite false 8169360839064053 (-49)) (S754_finite false 4503599627370496 (-52));
  mkVertex (S754_finite true 4998995586381251 (-47)) (S754_finite false 8569308633472224 (-48)) (S754_finite false 8046694044213549 (-49)) (S754_finite false 4503599627370496 (-52));
  mkVertex (S754_finite true 5067576964456802 (-47)) (S754_finite false 8766200379681328 (-48)) (S754_finite false 8189007792438457 (-49)) (S754_finite false 4503599627370496 (-52));
  mkVertex (S754_finite true 5232155383339522 (-47)) (S754_finite false 8569308633472224 (-48)) (S754_finite false 8478532953483038 (-49)) (S754_finite false 4503599627370496 (-52));
  mkVertex (S754_finite true 5418773292898687 (-47)) (S754_finite false 7978605247347242 (-48)) (S754_finite false 8797444102096211 (-49)) (S754_finite false 4503599627370496 (-52));
  mkVertex (S754_finite true 5483779938770013 (-47)) (S754_finite false 7978605247347242 (-48)) (S754_finite true 4990168531111604 (-52)) (S754_finite false 4503599627370496 (-52));
  mkVertex (S754_finite true 5405642485235135 (-47)) (S754_finite false 8569308633472224 (-48)) (S754_finite true 4990168531111604 (-52)) (S754_finite false 4503599627370496 (-52));
  mkVertex (S754_finite true 5496277427735967 (-47)) (S754_finite false 8766200379681328 (-48)) (S754_finite true 4990168531111604 (-52)) (S754_finite false 4503599627370496 (-52));
  mkVertex (S754_finite true 5680671684979117 (-47)) (S754_finite false 8569308633472224 (-48)) (S754_finite true 4990168531111604 (-52)) (S754_finite false 4503599627370496 (-52));
  mkVertex (S754_finite true 5883826249420033 (-47)) (S754_finite false 7978605247347242 (-48)) (S754_finite true 4990168531111604 (-52)) (S754_finite false 4503599627370496 (-52));
  mkVertex (S754_finite true 5049717377184511 (-47)) (S754_finite false 7978605247347242 (-48)) (S754_finite true 4708457115420511 (-48)) (S754_finite false 4503599627370496 (-52));
  mkVertex (S754_finite true 4977645709397747 (-47)) (S754_finite false 8569308633472224 (-48)) (S754_finite true 4647123717995259 (-48)) (S754_finite false 4503599627370496 (-52));
  mkVertex (S754_finite true 5061257851229648 (-47)) (S754_finite false 8766200379681328 (-48)) (S754_finite true 4718280592107713 (-48)) (S754_finite false 4503599627370496 (-52));
  mkVertex (S754_finite true 5231367253404733 (-47)) (S754_finite false 8569308633472224 (-48)) (S754_finite true 4863015025132333 (-48)) (S754_finite false 4503599627370496 (-52));
  mkVertex (S754_finite true 5418773292898687 (-47)) (S754_finite false 7978605247347242 (-48)) (S754_finite true 5022498746936590 (-48)) (S754_finite false 4503599627370496 (-52));
  mkVertex (S754_finite true 7719113466317688 (-48)) (S754_finite false 7978605247347242 (-48)) (S754_finite true 8264921593657321 (-48)) (S754_finite false 4503599627370496 (-52));
  mkVertex (S754_finite true 7608184177996018 (-48)) (S754_finite false 8569308633472224 (-48)) (S754_finite true 8153964157837980 (-48)) (S754_finite false 4503599627370496 (-52));
  mkVertex (S754_finite true 7736874537348130 (-48)) (S754_finite false 8766200379681328 (-48)) (S754_finite true 8282682664687763 (-48)) (S754_finite false 4503599627370496 (-52));
  mkVertex (S754_finite true 7998730708182054 (-48)) (S754_finite false 8569308633472224 (-48)) (S754_finite true 8544510688024016 (-48)) (S754_finite false 4503599627370496 (-52));
  mkVertex (S754_finite true 8287214411812805 (-48)) (S754_finite false 7978605247347242 (-48)) (S754_finite true 8832994391654767 (-48)) (S754_finite false 4503599627370496 (-52));
  mkVertex (S754_finite true 8325297976161757 (-49)) (S754_finite false 7978605247347242 (-48)) (S754_finite true 5322621440854327 (-47)) (S754_finite false 4503599627370496 (-52));
  mkVertex (S754_finite true 8202631181311253 (-49)) (S754_finite false 8569308633472224 (-48)) (S754_finite true 5250535699318728 (-47)) (S754_finite false 4503599627370496 (-52));
  mkVertex (S754_finite true 8344944929536161 (-49)) (S754_finite false 8766200379681328 (-48)) (S754_finite true 5334147841150629 (-47)) (S754_finite false 4503599627370496 (-52));
  mkVertex (S754_finite true 8634470090580741 (-49)) (S754_finite false 8569308633472224 (-48)) (S754_finite true 5504257243325714 (-47)) (S754_finite false 4503599627370496 (-52));
  mkVertex (S754_finite true 8953381239193915 (-49)) (S754_finite false 7978605247347242 (-48)) (S754_finite true 5691663282819668 (-47)) (S754_finite false 4503599627370496 (-52));
  mkVertex (S754_finite false 7485207760671133 (-53)) (S754_finite false 7978605247347242 (-48)) (S754_finite true 5756669928690994 (-47)) (S754_finite false 4503599627370496 (-52));
  mkVertex (S754_finite false 7485207760671133 (-53)) (S754_finite false 8569308633472224 (-48)) (S754_finite true 5678532475156116 (-47)) (S754_finite false 4503599627370496 (-52));
  mkVertex (S754_finite false 7485207760671133 (-53)) (S754_finite false 8766200379681328 (-48)) (S754_finite true 5769181491405783 (-47)) (S754_finite false 4503599627370496 (-52));
  mkVertex (S754_finite false 7485207760671133 (-53)) (S754_finite false 8569308633472224 (-48)) (S754_finite true 5953575748648934 (-47)) (S754_finite false 4503599627370496 (-52));
  mkVertex (S754_finite false 7485207760671133 (-53)) (S754_finite false 7978605247347242 (-48)) (S754_finite true 6156730313089850 (-47)) (S754_finite false 4503599627370496 (-52));
  mkVertex (S754_finite false 4630488546871660 (-48)) (S754_finite false 7978605247347242 (-48)) (S754_finite true 5322621440854327 (-47)) (S754_finite false 4503599627370496 (-52));
  mkVertex (S754_finite false 4569155149446408 (-48)) (S754_finite false 8569308633472224 (-48)) (S754_finite true 5250535699318728 (-47)) (S754_finite false 4503599627370496 (-52));
  mkVertex (S754_finite false 4640312023558862 (-48)) (S754_finite false 8766200379681328 (-48)) (S754_finite true 5334147841150629 (-47)) (S754_finite false 4503599627370496 (-52));
  mkVertex (S754_finite false 4785046456583481 (-48)) (S754_finite false 8569308633472224 (-48)) (S754_finite true 5504257243325714 (-47)) (S754_finite false 4503599627370496 (-52));
  mkVertex (S754_finite false 4944530178387739 (-48)) (S754_finite false 7978605247347242 (-48)) (S754_finite true 5691663282819668 (-47)) (S754_finite false 4503599627370496 (-52));
  mkVertex (S754_finite false 8186953025108469 (-48)) (S754_finite false 7978605247347242 (-48)) (S754_finite true 8264921593657321 (-48)) (S754_finite false 4503599627370496 (-52));
  mkVertex (S754_finite false 8075995589289129 (-48)) (S754_finite false 8569308633472224 (-48)) (S754_finite true 8153964157837980 (-48)) (S754_finite false 4503599627370496 (-52));
  mkVertex (S754_finite false 8204714096138912 (-48)) (S754_finite false 8766200379681328 (-48)) (S754_finite true 8282682664687763 (-48)) (S754_finite false 4503599627370496 (-52));
  mkVertex (S754_finite false 8466542119475164 (-48)) (S754_finite false 8569308633472224 (-48)) (S754_finite true 8544510688024016 (-48)) (S754_finite false 4503599627370496 (-52));
  mkVertex (S754_finite false 8755025823105915 (-48)) (S754_finite false 7978605247347242 (-48)) (S754_finite true 8832994391654767 (-48)) (S754_finite false 4503599627370496 (-52));
  mkVertex (S754_finite false 5283637156579901 (-47)) (S754_finite false 7978605247347242 (-48)) (S754_finite true 4708457115420511 (-48)) (S754_finite false 4503599627370496 (-52));
  mkVertex (S754_finite false 5211551415044302 (-47)) (S754_finite false 8569308633472224 (-48)) (S754_finite true 4647123717995259 (-48)) (S754_finite false 4503599627370496 (-52));
  mkVertex (S754_finite false 5295163556876203 (-47)) (S754_finite false 8766200379681328 (-48)) (S754_finite true 4718280592107713 (-48)) (S754_finite false 4503599627370496 (-52));
  mkVertex (S754_finite false 5465272959051288 (-47)) (S754_finite false 8569308633472224 (-48)) (S754_finite true 4863015025132333 (-48)) (S754_finite false 4503599627370496 (-52));
  mkVertex (S754_finite false 5652678998545243 (-47)) (S754_finite false 7978605247347242 (-48)) (S754_finite true 5022498746936590 (-48)) (S754_finite false 4503599627370496 (-52));
  mkVertex (S754_finite false 6852212759295374 (-47)) (S754_finite false 4837569687237689 (-48)) (S754_finite true 4990168531111604 (-52)) (S754_finite false 4503599627370496 (-52));
  mkVertex (S754_finite false 7492920175033005 (-47)) (S754_finite false 7011136345895978 (-50)) (S754_finite true 4990168531111604 (-52)) (S754_finite false 4503599627370496 (-52));
  mkVertex (S754_finite false 7946108961285997 (-47)) (S754_finite true 4877916310399395 (-50)) (S754_finite true 4990168531111604 (-52)) (S754_finite false 4503599627370496 (-52));
  mkVertex (S754_finite false 8118005729563194 (-47)) (S754_finite true 8045962209274102 (-49)) (S754_finite true 4990168531111604 (-52)) (S754_finite false 4503599627370496 (-52));
  mkVertex (S754_finite false 6330231488734298 (-47)) (S754_finite false 4837569687237689 (-48)) (S754_finite false 4975295393342213 (-48)) (S754_finite false 4503599627370496 (-52));
  mkVertex (S754_finite false 6921286718580169 (-47)) (S754_finite false 7011136345895978 (-50)) (S754_finite false 5478234881728813 (-48)) (S754_finite false 4503599627370496 (-52));
  mkVertex (S754_finite false 7339347427739671 (-47)) (S754_finite true 4877916310399395 (-50)) (S754_finite false 5833991104793412 (-48)) (S754_finite false 4503599627370496 (-52));
  mkVertex (S754_finite false 7497916355869619 (-47)) (S754_finite true 8045962209274102 (-49)) (S754_finite false 5968930208628500 (-48)) (S754_finite false 4503599627370496 (-52));
  mkVertex (S754_finite false 4898987527155954 (-47)) (S754_finite false 4837569687237689 (-48)) (S754_finite false 4626083463486138 (-47)) (S754_finite false 4503599627370496 (-52));
  mkVertex (S754_finite false 5353893310766881 (-47)) (S754_finite false 7011136345895978 (-50)) (S754_finite false 5080989247097065 (-47)) (S754_finite false 4503599627370496 (-52));
  mkVertex (S754_finite false 5675647356644832 (-47)) (S754_finite true 4877916310399395 (-50)) (S754_finite false 5402757366723851 (-47)) (S754_finite false 4503599627370496 (-52));
  mkVertex (S754_finite false 5797694906546572 (-47)) (S754_finite true 8045962209274102 (-49)) (S754_finite false 5524804916625592 (-47)) (S754_finite false 4503599627370496 (-52));
  mkVertex (S754_finite false 5521075373184175 (-48)) (S754_finite false 4837569687237689 (-48)) (S754_finite false 6057327425064482 (-47)) (S754_finite false 4503599627370496 (-52));
  mkVertex (S754_finite false 6024043009068447 (-48)) (S754_finite false 7011136345895978 (-50)) (S754_finite false 6648382654910353 (-47)) (S754_finite false 4503599627370496 (-52));
  mkVertex (S754_finite false 6379799232133045 (-48)) (S754_finite true 4877916310399395 (-50)) (S754_finite false 7066443364069854 (-47)) (S754_finite false 4503599627370496 (-52));
  mkVertex (S754_finite false 6514738335968133 (-48)) (S754_finite true 8045962209274102 (-49)) (S754_finite false 7225026365948638 (-47)) (S754_finite false 4503599627370496 (-52));
  mkVertex (S754_finite false 7485207760671133 (-53)) (S754_finite false 4837569687237689 (-48)) (S754_finite false 6579308695625558 (-47)) (S754_finite false 4503599627370496 (-52));
  mkVertex (S754_finite false 7485207760671133 (-53)) (S754_finite false 7011136345895978 (-50)) (S754_finite false 7220016111363188 (-47)) (S754_finite false 4503599627370496 (-52));
  mkVertex (S754_finite false 7485207760671133 (-53)) (S754_finite true 4877916310399395 (-50)) (S754_finite false 7673204897616180 (-47)) (S754_finite false 4503599627370496 (-52));
  mkVertex (S754_finite false 7485207760671133 (-53)) (S754_finite true 8045962209274102 (-49)) (S754_finite false 7845101665893378 (-47)) (S754_finite false 4503599627370496 (-52));
  mkVertex (S754_finite true 5053263961891065 (-48)) (S754_finite false 4837569687237689 (-48)) (S754_finite false 6057327425064482 (-47)) (S754_finite false 4503599627370496 (-52));
  mkVertex (S754_finite true 5556231597775336 (-48)) (S754_finite false 7011136345895978 (-50)) (S754_finite false 6648382654910353 (-47)) (S754_finite false 4503599627370496 (-52));
  mkVertex (S754_finite true 5911959673342263 (-48)) (S754_finite true 4877916310399395 (-50)) (S754_finite false 7066443364069854 (-47)) (S754_finite false 4503599627370496 (-52));
  mkVertex (S754_finite true 6046898777177352 (-48)) (S754_finite true 8045962209274102 (-49)) (S754_finite false 7225026365948638 (-47)) (S754_finite false 4503599627370496 (-52));
  mkVertex (S754_finite true 4665081821509399 (-47)) (S754_finite false 4837569687237689 (-48)) (S754_finite false 4626083463486138 (-47)) (S754_finite false 4503599627370496 (-52));
  mkVertex (S754_finite true 5119973531371491 (-47)) (S754_finite false 7011136345895978 (-50)) (S754_finite false 5080989247097065 (-47)) (S754_finite false 4503599627370496 (-52));
  mkVertex (S754_finite true 5441741650998277 (-47)) (S754_finite true 4877916310399395 (-50)) (S754_finite false 5402757366723851 (-47)) (S754_finite false 4503599627370496 (-52));
  mkVertex (S754_finite true 5563789200900017 (-47)) (S754_finite true 8045962209274102 (-49)) (S754_finite false 5524804916625592 (-47)) (S754_finite false 4503599627370496 (-52));
  mkVertex (S754_finite true 6096311709338907 (-47)) (S754_finite false 4837569687237689 (-48)) (S754_finite false 4975295393342213 (-48)) (S754_finite false 4503599627370496 (-52));
  mkVertex (S754_finite true 6687366939184778 (-47)) (S754_finite false 7011136345895978 (-50)) (S754_finite false 5478234881728813 (-48)) (S754_finite false 4503599627370496 (-52));
  mkVertex (S754_finite true 7105427648344280 (-47)) (S754_finite true 4877916310399395 (-50)) (S754_finite false 5833991104793412 (-48)) (S754_finite false 4503599627370496 (-52));
  mkVertex (S754_finite true 7264010650223064 (-47)) (S754_finite true 8045962209274102 (-49)) (S754_finite false 5968930208628500 (-48)) (S754_finite false 4503599627370496 (-52));
  mkVertex (S754_finite true 6618292979899983 (-47)) (S754_finite false 4837569687237689 (-48)) (S754_finite true 4990168531111604 (-52)) (S754_finite false 4503599627370496 (-52));
  mkVertex (S754_finite true 7259014469386450 (-47)) (S754_finite false 7011136345895978 (-50)) (S754_finite true 4990168531111604 (-52)) (S754_finite false 4503599627370496 (-52));
  mkVertex (S754_finite true 7712189181890606 (-47)) (S754_finite true 4877916310399395 (-50)) (S754_finite true 4990168531111604 (-52)) (S754_finite false 4503599627370496 (-52));
  mkVertex (S754_finite true 7884085950167803 (-47)) (S754_finite true 8045962209274102 (-49)) (S754_finite true 4990168531111604 (-52)) (S754_finite false 4503599627370496 (-52));
  mkVertex (S754_finite true 6096311709338907 (-47)) (S754_finite false 4837569687237689 (-48)) (S754_finite true 5599072089230698 (-48)) (S754_finite false 4503599627370496 (-52));
  mkVertex (S754_finite true 6687366939184778 (-47)) (S754_finite false 7011136345895978 (-50)) (S754_finite true 6102011577617298 (-48)) (S754_finite false 4503599627370496 (-52));
  mkVertex (S754_finite true 7105427648344280 (-47)) (S754_finite true 4877916310399395 (-50)) (S754_finite true 6457767800681896 (-48)) (S754_finite false 4503599627370496 (-52));
  mkVertex (S754_finite true 7264010650223064 (-47)) (S754_finite true 8045962209274102 (-49)) (S754_finite true 6592706904516985 (-48)) (S754_finite false 4503599627370496 (-52));
  mkVertex (S754_finite true 4665081821509399 (-47)) (S754_finite false 4837569687237689 (-48)) (S754_finite true 4937971811430380 (-47)) (S754_finite false 4503599627370496 (-52));
  mkVertex (S754_finite true 5119973531371491 (-47)) (S754_finite false 7011136345895978 (-50)) (S754_finite true 5392877595041307 (-47)) (S754_finite false 4503599627370496 (-52));
  mkVertex (S754_finite true 5441741650998277 (-47)) (S754_finite true 4877916310399395 (-50)) (S754_finite true 5714631640919258 (-47)) (S754_finite false 4503599627370496 (-52));
  mkVertex (S754_finite true 5563789200900017 (-47)) (S754_finite true 8045962209274102 (-49)) (S754_finite true 5836679190820998 (-47)) (S754_finite false 4503599627370496 (-52));
  mkVertex (S754_finite true 5053263961891065 (-48)) (S754_finite false 4837569687237689 (-48)) (S754_finite true 6369215773008724 (-47)) (S754_finite false 4503599627370496 (-52));
  mkVertex (S754_finite true 5556231597775336 (-48)) (S754_finite false 7011136345895978 (-50)) (S754_finite true 6960271002854595 (-47)) (S754_finite false 4503599627370496 (-52));
  mkVertex (S754_finite true 5911959673342263 (-48)) (S754_finite true 4877916310399395 (-50)) (S754_finite true 7378331712014097 (-47)) (S754_finite false 4503599627370496 (-52));
  mkVertex (S754_finite true 6046898777177352 (-48)) (S754_finite true 8045962209274102 (-49)) (S754_finite true 7536900640144045 (-47)) (S754_finite false 4503599627370496 (-52));
  mkVertex (S754_finite false 7485207760671133 (-53)) (S754_finite false 4837569687237689 (-48)) (S754_finite true 6891197043569800 (-47)) (S754_finite false 4503599627370496 (-52));
  mkVertex (S754_finite false 7485207760671133 (-53)) (S754_finite false 7011136345895978 (-50)) (S754_finite true 7531904459307431 (-47)) (S754_finite false 4503599627370496 (-52));
  mkVertex (S754_finite false 7485207760671133 (-53)) (S754_finite true 4877916310399395 (-50)) (S754_finite true 7985093245560422 (-47)) (S754_finite false 4503599627370496 (-52));
  mkVertex (S754_finite false 7485207760671133 (-53)) (S754_finite true 8045962209274102 (-49)) (S754_finite true 8156990013837620 (-47)) (S754_finite false 4503599627370496 (-52));
  mkVertex (S754_finite false 5521075373184175 (-48)) (S754_finite false 4837569687237689 (-48)) (S754_finite true 6369215773008724 (-47)) (S754_finite false 4503599627370496 (-52));
  mkVertex (S754_finite false 6024043009068447 (-48)) (S754_finite false 7011136345895978 (-50)) (S754_finite true 6960271002854595 (-47)) (S754_finite false 4503599627370496 (-52));
  mkVertex (S754_finite false 6379799232133045 (-48)) (S754_finite true 4877916310399395 (-50)) (S754_finite true 7378331712014097 (-47)) (S754_finite false 4503599627370496 (-52));
  mkVertex (S754_finite false 6514738335968133 (-48)) (S754_finite true 8045962209274102 (-49)) (S754_finite true 7536900640144045 (-47)) (S754_finite false 4503599627370496 (-52));
  mkVertex (S754_finite false 4898987527155954 (-47)) (S754_finite false 4837569687237689 (-48)) (S754_finite true 4937971811430380 (-47)) (S754_finite false 4503599627370496 (-52));
  mkVertex (S754_finite false 5353893310766881 (-47)) (S754_finite false 7011136345895978 (-50)) (S754_finite true 5392877595041307 (-47)) (S754_finite false 4503599627370496 (-52));
  mkVertex (S754_finite false 5675647356644832 (-47)) (S754_finite true 4877916310399395 (-50)) (S754_finite true 5714631640919258 (-47)) (S754_finite false 4503599627370496 (-52));
  mkVertex (S754_finite false 5797694906546572 (-47)) (S754_finite true 8045962209274102 (-49)) (S754_finite true 5836679190820998 (-47)) (S754_finite false 4503599627370496 (-52));
  mkVertex (S754_finite false 6330231488734298 (-47)) (S754_finite false 4837569687237689 (-48)) (S754_finite true 5599072089230698 (-48)) (S754_finite false 4503599627370496 (-52));
  mkVertex (S754_finite false 6921286718580169 (-47)) (S754_finite false 7011136345895978 (-50)) (S754_finite true 6102011577617298 (-48)) (S754_finite false 4503599627370496 (-52));
  mkVertex (S754_finite false 7339347427739671 (-47)) (S754_finite true 4877916310399395 (-50)) (S754_finite true 6457767800681896 (-48)) (S754_finite false 4503599627370496 (-52));
  mkVertex (S754_finite false 7497916355869619 (-47)) (S754_finite true 8045962209274102 (-49)) (S754_finite true 6592706904516985 (-48)) (S754_finite false 4503599627370496 (-52));
  mkVertex (S754_finite false 7805455915423682 (-47)) (S754_finite true 6395167765861446 (-48)) (S754_finite true 4990168531111604 (-52)) (S754_finite false 4503599627370496 (-52));
  mkVertex (S754_finite false 7117868842314891 (-47)) (S754_finite true 8148503543289794 (-48)) (S754_finite true 4990168531111604 (-52)) (S754_finite false 4503599627370496 (-52));
  mkVertex (S754_finite false 6430281769206101 (-47)) (S754_finite true 4669641716132112 (-47)) (S754_finite true 4990168531111604 (-52)) (S754_finite false 4503599627370496 (-52));
  mkVertex (S754_finite false 6117746028815424 (-47)) (S754_finite true 5011873066565763 (-47)) (S754_finite true 4990168531111604 (-52)) (S754_finite false 4503599627370496 (-52));
  mkVertex (S754_finite false 7209601537224894 (-47)) (S754_finite true 6395167765861446 (-48)) (S754_finite false 5723596618927492 (-48)) (S754_finite false 4503599627370496 (-52));
  mkVertex (S754_finite false 6575297677207431 (-47)) (S754_finite true 8148503543289794 (-48)) (S754_finite false 5183840203587138 (-48)) (S754_finite false 4503599627370496 (-52));
  mkVertex (S754_finite false 5940993817189967 (-47)) (S754_finite true 4669641716132112 (-47)) (S754_finite false 4644083788246784 (-48)) (S754_finite false 4503599627370496 (-52));
  mkVertex (S754_finite false 5652678998545243 (-47)) (S754_finite true 5011873066565763 (-47)) (S754_finite false 8797444102096211 (-49)) (S754_finite false 4503599627370496 (-52));
  mkVertex (S754_finite false 5575794108656727 (-47)) (S754_finite true 6395167765861446 (-48)) (S754_finite false 5302890044986910 (-47)) (S754_finite false 4503599627370496 (-52));
  mkVertex (S754_finite false 5087603909049765 (-47)) (S754_finite true 8148503543289794 (-48)) (S754_finite false 4814713919128784 (-47)) (S754_finite false 4503599627370496 (-52));
  mkVertex (S754_finite false 4599413709442803 (-47)) (S754_finite true 4669641716132112 (-47)) (S754_finite false 8653047439043645 (-48)) (S754_finite false 4503599627370496 (-52));
  mkVertex (S754_finite false 8755025823105915 (-48)) (S754_finite true 5011873066565763 (-47)) (S754_finite false 8209217695766282 (-48)) (S754_finite false 4503599627370496 (-52));
  mkVertex (S754_finite false 6269376598769454 (-48)) (S754_finite true 6395167765861446 (-48)) (S754_finite false 6936697473555078 (-47)) (S754_finite false 4503599627370496 (-52));
  mkVertex (S754_finite false 5729620183429100 (-48)) (S754_finite true 8148503543289794 (-48)) (S754_finite false 6302407687286450 (-47)) (S754_finite false 4503599627370496 (-52));
  mkVertex (S754_finite false 5189863768088746 (-48)) (S754_finite true 4669641716132112 (-47)) (S754_finite false 5668103827268986 (-47)) (S754_finite false 4503599627370496 (-52));
  mkVertex (S754_finite false 4944530178387739 (-48)) (S754_finite true 5011873066565763 (-47)) (S754_finite false 5379774934875426 (-47)) (S754_finite false 4503599627370496 (-52));
  mkVertex (S754_finite false 7485207760671133 (-53)) (S754_finite true 6395167765861446 (-48)) (S754_finite false 7532565925502701 (-47)) (S754_finite false 4503599627370496 (-52));
  mkVertex (S754_finite false 7485207760671133 (-53)) (S754_finite true 8148503543289794 (-48)) (S754_finite false 6844978852393910 (-47)) (S754_finite false 4503599627370496 (-52));
  mkVertex (S754_finite false 7485207760671133 (-53)) (S754_finite true 4669641716132112 (-47)) (S754_finite false 6157377705536284 (-47)) (S754_finite false 4503599627370496 (-52));
  mkVertex (S754_finite false 7485207760671133 (-53)) (S754_finite true 5011873066565763 (-47)) (S754_finite false 5844841965145607 (-47)) (S754_finite false 4503599627370496 (-52));
  mkVertex (S754_finite true 5801565187476344 (-48)) (S754_finite true 6395167765861446 (-48)) (S754_finite false 6936697473555078 (-47)) (S754_finite false 4503599627370496 (-52));
  mkVertex (S754_finite true 5261808772135990 (-48)) (S754_finite true 8148503543289794 (-48)) (S754_finite false 6302407687286450 (-47)) (S754_finite false 4503599627370496 (-52));
  mkVertex (S754_finite true 4722052356795636 (-48)) (S754_finite true 4669641716132112 (-47)) (S754_finite false 5668103827268986 (-47)) (S754_finite false 4503599627370496 (-52));
  mkVertex (S754_finite true 8953381239193915 (-49)) (S754_finite true 5011873066565763 (-47)) (S754_finite false 5379774934875426 (-47)) (S754_finite false 4503599627370496 (-52));
  mkVertex (S754_finite true 5341888403010172 (-47)) (S754_finite true 6395167765861446 (-48)) (S754_finite false 5302890044986910 (-47)) (S754_finite false 4503599627370496 (-52));
  mkVertex (S754_finite true 4853698203403210 (-47)) (S754_finite true 8148503543289794 (-48)) (S754_finite false 4814713919128784 (-47)) (S754_finite false 4503599627370496 (-52));
  mkVertex (S754_finite true 8731016007592496 (-48)) (S754_finite true 4669641716132112 (-47)) (S754_finite false 8653047439043645 (-48)) (S754_finite false 4503599627370496 (-52));
  mkVertex (S754_finite true 8287214411812805 (-48)) (S754_finite true 5011873066565763 (-47)) (S754_finite false 8209217695766282 (-48)) (S754_finite false 4503599627370496 (-52));
  mkVertex (S754_finite true 6975695831578339 (-47)) (S754_finite true 6395167765861446 (-48)) (S754_finite false 5723596618927492 (-48)) (S754_finite false 4503599627370496 (-52));
  mkVertex (S754_finite true 6341391971560876 (-47)) (S754_finite true 8148503543289794 (-48)) (S754_finite false 5183840203587138 (-48)) (S754_finite false 4503599627370496 (-52));
  mkVertex (S754_finite true 5707088111543412 (-47)) (S754_finite true 4669641716132112 (-47)) (S754_finite false 4644083788246784 (-48)) (S754_finite false 4503599627370496 (-52));
  mkVertex (S754_finite true 5418773292898687 (-47)) (S754_finite true 5011873066565763 (-47)) (S754_finite false 8797444102096211 (-49)) (S754_finite false 4503599627370496 (-52));
  mkVertex (S754_finite true 7571550209777127 (-47)) (S754_finite true 6395167765861446 (-48)) (S754_finite true 4990168531111604 (-52)) (S754_finite false 4503599627370496 (-52));
  mkVertex (S754_finite true 6883963136668336 (-47)) (S754_finite true 8148503543289794 (-48)) (S754_finite true 4990168531111604 (-52)) (S754_finite false 4503599627370496 (-52));
  mkVertex (S754_finite true 6196376063559546 (-47)) (S754_finite true 4669641716132112 (-47)) (S754_finite true 4990168531111604 (-52)) (S754_finite false 4503599627370496 (-52));
  mkVertex (S754_finite true 5883826249420033 (-47)) (S754_finite true 5011873066565763 (-47)) (S754_finite true 4990168531111604 (-52)) (S754_finite false 4503599627370496 (-52));
  mkVertex (S754_finite true 6975695831578339 (-47)) (S754_finite true 6395167765861446 (-48)) (S754_finite true 6347373314815977 (-48)) (S754_finite false 4503599627370496 (-52));
  mkVertex (S754_finite true 6341391971560876 (-47)) (S754_finite true 8148503543289794 (-48)) (S754_finite true 5807588751977952 (-48)) (S754_finite false 4503599627370496 (-52));
  mkVertex (S754_finite true 5707088111543412 (-47)) (S754_finite true 4669641716132112 (-47)) (S754_finite true 5267832336637598 (-48)) (S754_finite false 4503599627370496 (-52));
  mkVertex (S754_finite true 5418773292898687 (-47)) (S754_finite true 5011873066565763 (-47)) (S754_finite true 5022498746936590 (-48)) (S754_finite false 4503599627370496 (-52));
  mkVertex (S754_finite true 5341888403010172 (-47)) (S754_finite true 6395167765861446 (-48)) (S754_finite true 5614778392931153 (-47)) (S754_finite false 4503599627370496 (-52));
  mkVertex (S754_finite true 4853698203403210 (-47)) (S754_finite true 8148503543289794 (-48)) (S754_finite true 5126588193324191 (-47)) (S754_finite false 4503599627370496 (-52));
  mkVertex (S754_finite true 8731016007592496 (-48)) (S754_finite true 4669641716132112 (-47)) (S754_finite true 4638397993717229 (-47)) (S754_finite false 4503599627370496 (-52));
  mkVertex (S754_finite true 8287214411812805 (-48)) (S754_finite true 5011873066565763 (-47)) (S754_finite true 8832994391654767 (-48)) (S754_finite false 4503599627370496 (-52));
  mkVertex (S754_finite true 5801565187476344 (-48)) (S754_finite true 6395167765861446 (-48)) (S754_finite true 7248585821499320 (-47)) (S754_finite false 4503599627370496 (-52));
  mkVertex (S754_finite true 5261808772135990 (-48)) (S754_finite true 8148503543289794 (-48)) (S754_finite true 6614281961481857 (-47)) (S754_finite false 4503599627370496 (-52));
  mkVertex (S754_finite true 4722052356795636 (-48)) (S754_finite true 4669641716132112 (-47)) (S754_finite true 5979978101464393 (-47)) (S754_finite false 4503599627370496 (-52));
  mkVertex (S754_finite true 8953381239193915 (-49)) (S754_finite true 5011873066565763 (-47)) (S754_finite true 5691663282819668 (-47)) (S754_finite false 4503599627370496 (-52));
  mkVertex (S754_finite false 7485207760671133 (-53)) (S754_finite true 6395167765861446 (-48)) (S754_finite true 7844454273446943 (-47)) (S754_finite false 4503599627370496 (-52));
  mkVertex (S754_finite false 7485207760671133 (-53)) (S754_finite true 8148503543289794 (-48)) (S754_finite true 7156853126589317 (-47)) (S754_finite false 4503599627370496 (-52));
  mkVertex (S754_finite false 7485207760671133 (-53)) (S754_finite true 4669641716132112 (-47)) (S754_finite true 6469266053480527 (-47)) (S754_finite false 4503599627370496 (-52));
  mkVertex (S754_finite false 7485207760671133 (-53)) (S754_finite true 5011873066565763 (-47)) (S754_finite true 6156730313089850 (-47)) (S754_finite false 4503599627370496 (-52));
  mkVertex (S754_finite false 6269376598769454 (-48)) (S754_finite true 6395167765861446 (-48)) (S754_finite true 7248585821499320 (-47)) (S754_finite false 4503599627370496 (-52));
  mkVertex (S754_finite false 5729620183429100 (-48)) (S754_finite true 8148503543289794 (-48)) (S754_finite true 6614281961481857 (-47)) (S754_finite false 4503599627370496 (-52));
  mkVertex (S754_finite false 5189863768088746 (-48)) (S754_finite true 4669641716132112 (-47)) (S754_finite true 5979978101464393 (-47)) (S754_finite false 4503599627370496 (-52));
  mkVertex (S754_finite false 4944530178387739 (-48)) (S754_finite true 5011873066565763 (-47)) (S754_finite true 5691663282819668 (-47)) (S754_finite false 4503599627370496 (-52));
  mkVertex (S754_finite false 5575794108656727 (-47)) (S754_finite true 6395167765861446 (-48)) (S754_finite true 5614778392931153 (-47)) (S754_finite false 4503599627370496 (-52));
  mkVertex (S754_finite false 5087603909049765 (-47)) (S754_finite true 8148503543289794 (-48)) (S754_finite true 5126588193324191 (-47)) (S754_finite false 4503599627370496 (-52));
  mkVertex (S754_finite false 4599413709442803 (-47)) (S754_finite true 4669641716132112 (-47)) (S754_finite true 4638397993717229 (-47)) (S754_finite false 4503599627370496 (-52));
  mkVertex (S754_finite false 8755025823105915 (-48)) (S754_finite true 5011873066565763 (-47)) (S754_finite true 8832994391654767 (-48)) (S754_finite false 4503599627370496 (-52));
  mkVertex (S754_finite false 7209601537224894 (-47)) (S754_finite true 6395167765861446 (-48)) (S754_finite true 6347373314815977 (-48)) (S754_finite false 4503599627370496 (-52));
  mkVertex (S754_finite false 6575297677207431 (-47)) (S754_finite true 8148503543289794 (-48)) (S754_finite true 5807588751977952 (-48)) (S754_finite false 4503599627370496 (-52));
  mkVertex (S754_finite false 5940993817189967 (-47)) (S754_finite true 4669641716132112 (-47)) (S754_finite true 5267832336637598 (-48)) (S754_finite false 4503599627370496 (-52));
  mkVertex (S754_finite false 5652678998545243 (-47)) (S754_finite true 5011873066565763 (-47)) (S754_finite true 5022498746936590 (-48)) (S754_finite false 4503599627370496 (-52));
  mkVertex (S754_finite false 5981779541315342 (-47)) (S754_finite true 5232225752083700 (-47)) (S754_finite true 4990168531111604 (-52)) (S754_finite false 4503599627370496 (-52));
  mkVertex (S754_finite false 5255123741439112 (-47)) (S754_finite true 5424430939930572 (-47)) (S754_finite true 4990168531111604 (-52)) (S754_finite false 4503599627370496 (-52));
  mkVertex (S754_finite false 6919161582506004 (-48)) (S754_finite true 5560383353681818 (-47)) (S754_finite true 4990168531111604 (-52)) (S754_finite false 4503599627370496 (-52));
  mkVertex (S754_finite false 7485207760671133 (-53)) (S754_finite true 5611963643164046 (-47)) (S754_finite true 4990168531111604 (-52)) (S754_finite false 4503599627370496 (-52));
  mkVertex (S754_finite false 5527267822671810 (-47)) (S754_finite true 5232225752083700 (-47)) (S754_finite false 8584029774754192 (-49)) (S754_finite false 4503599627370496 (-52));
  mkVertex (S754_finite false 4856921091886547 (-47)) (S754_finite true 5424430939930572 (-47)) (S754_finite false 7443155399150561 (-49)) (S754_finite false 4503599627370496 (-52));
  mkVertex (S754_finite false 6401050592874699 (-48)) (S754_finite true 5560383353681818 (-47)) (S754_finite false 4624149730396136 (-49)) (S754_finite false 4503599627370496 (-52));
  mkVertex (S754_finite false 8561962136580076 (-48)) (S754_finite true 5232225752083700 (-47)) (S754_finite false 8016182156738114 (-48)) (S754_finite false 4503599627370496 (-52));
  mkVertex (S754_finite false 7530103019456483 (-48)) (S754_finite true 5424430939930572 (-47)) (S754_finite false 6984323039614521 (-48)) (S754_finite false 4503599627370496 (-52));
  mkVertex (S754_finite false 4980446385416018 (-48)) (S754_finite true 5560383353681818 (-47)) (S754_finite false 8869276516152771 (-49)) (S754_finite false 4503599627370496 (-52));
  mkVertex (S754_finite false 4837794867219058 (-48)) (S754_finite true 5232225752083700 (-47)) (S754_finite false 5254363759001993 (-47)) (S754_finite false 4503599627370496 (-52));
  mkVertex (S754_finite false 8534771653829827 (-49)) (S754_finite true 5424430939930572 (-47)) (S754_finite false 4584017028216730 (-47)) (S754_finite false 4503599627370496 (-52));
  mkVertex (S754_finite false 5715743467077265 (-49)) (S754_finite true 5560383353681818 (-47)) (S754_finite false 5855270613032737 (-48)) (S754_finite false 4503599627370496 (-52));
  mkVertex (S754_finite false 7485207760671133 (-53)) (S754_finite true 5232225752083700 (-47)) (S754_finite false 5708889551394361 (-47)) (S754_finite false 4503599627370496 (-52));
  mkVertex (S754_finite false 7485207760671133 (-53)) (S754_finite true 5424430939930572 (-47)) (S754_finite false 4982233751518131 (-47)) (S754_finite false 4503599627370496 (-52));
  mkVertex (S754_finite false 7485207760671133 (-53)) (S754_finite true 5560383353681818 (-47)) (S754_finite false 6373353455166371 (-48)) (S754_finite false 4503599627370496 (-52));
  mkVertex (S754_finite true 8739966911851895 (-49)) (S754_finite true 5232225752083700 (-47)) (S754_finite false 5254363759001993 (-47)) (S754_finite false 4503599627370496 (-52));
  mkVertex (S754_finite true 7599092536248264 (-49)) (S754_finite true 5424430939930572 (-47)) (S754_finite false 4584017028216730 (-47)) (S754_finite false 4503599627370496 (-52));
  mkVertex (S754_finite true 4780092496993373 (-49)) (S754_finite true 5560383353681818 (-47)) (S754_finite false 5855270613032737 (-48)) (S754_finite false 4503599627370496 (-52));
  mkVertex (S754_finite true 8094150725286966 (-48)) (S754_finite true 5232225752083700 (-47)) (S754_finite false 8016182156738114 (-48)) (S754_finite false 4503599627370496 (-52));
  mkVertex (S754_finite true 7062291608163372 (-48)) (S754_finite true 5424430939930572 (-47)) (S754_finite false 6984323039614521 (-48)) (S754_finite false 4503599627370496 (-52));
  mkVertex (S754_finite true 4512606826625237 (-48)) (S754_finite true 5560383353681818 (-47)) (S754_finite false 8869276516152771 (-49)) (S754_finite false 4503599627370496 (-52));
  mkVertex (S754_finite true 5293348043276419 (-47)) (S754_finite true 5232225752083700 (-47)) (S754_finite false 8584029774754192 (-49)) (S754_finite false 4503599627370496 (-52));
  mkVertex (S754_finite true 4623001312491156 (-47)) (S754_finite true 5424430939930572 (-47)) (S754_finite false 7443155399150561 (-49)) (S754_finite false 4503599627370496 (-52));
  mkVertex (S754_finite true 5933239181581589 (-48)) (S754_finite true 5560383353681818 (-47)) (S754_finite false 4624149730396136 (-49)) (S754_finite false 4503599627370496 (-52));
  mkVertex (S754_finite true 5747873835668786 (-47)) (S754_finite true 5232225752083700 (-47)) (S754_finite true 4990168531111604 (-52)) (S754_finite false 4503599627370496 (-52));
  mkVertex (S754_finite true 5021218035792557 (-47)) (S754_finite true 5424430939930572 (-47)) (S754_finite true 4990168531111604 (-52)) (S754_finite false 4503599627370496 (-52));
  mkVertex (S754_finite true 6451350171212893 (-48)) (S754_finite true 5560383353681818 (-47)) (S754_finite true 4990168531111604 (-52)) (S754_finite false 4503599627370496 (-52));
  mkVertex (S754_finite true 5293348043276419 (-47)) (S754_finite true 5232225752083700 (-47)) (S754_finite true 4915763435767910 (-48)) (S754_finite false 4503599627370496 (-52));
  mkVertex (S754_finite true 4623001312491156 (-47)) (S754_finite true 5424430939930572 (-47)) (S754_finite true 8690708790927530 (-49)) (S754_finite false 4503599627370496 (-52));
  mkVertex (S754_finite true 5933239181581589 (-48)) (S754_finite true 5560383353681818 (-47)) (S754_finite true 5871680604174968 (-49)) (S754_finite false 4503599627370496 (-52));
  mkVertex (S754_finite true 8094150725286966 (-48)) (S754_finite true 5232225752083700 (-47)) (S754_finite true 8639930705128928 (-48)) (S754_finite false 4503599627370496 (-52));
  mkVertex (S754_finite true 7062291608163372 (-48)) (S754_finite true 5424430939930572 (-47)) (S754_finite true 7608099735503005 (-48)) (S754_finite false 4503599627370496 (-52));
  mkVertex (S754_finite true 4512606826625237 (-48)) (S754_finite true 5560383353681818 (-47)) (S754_finite true 5058414953964870 (-48)) (S754_finite false 4503599627370496 (-52));
  mkVertex (S754_finite true 8739966911851895 (-49)) (S754_finite true 5232225752083700 (-47)) (S754_finite true 5566252106946236 (-47)) (S754_finite false 4503599627370496 (-52));
  mkVertex (S754_finite true 7599092536248264 (-49)) (S754_finite true 5424430939930572 (-47)) (S754_finite true 4895905376160973 (-47)) (S754_finite false 4503599627370496 (-52));
  mkVertex (S754_finite true 4780092496993373 (-49)) (S754_finite true 5560383353681818 (-47)) (S754_finite true 6479019161423551 (-48)) (S754_finite false 4503599627370496 (-52));
  mkVertex (S754_finite false 7485207760671133 (-53)) (S754_finite true 5232225752083700 (-47)) (S754_finite true 6020777899338603 (-47)) (S754_finite false 4503599627370496 (-52));
  mkVertex (S754_finite false 7485207760671133 (-53)) (S754_finite true 5424430939930572 (-47)) (S754_finite true 5294108025713538 (-47)) (S754_finite false 4503599627370496 (-52));
  mkVertex (S754_finite false 7485207760671133 (-53)) (S754_finite true 5560383353681818 (-47)) (S754_finite true 6997130151054855 (-48)) (S754_finite false 4503599627370496 (-52));
  mkVertex (S754_finite false 4837794867219058 (-48)) (S754_finite true 5232225752083700 (-47)) (S754_finite true 5566252106946236 (-47)) (S754_finite false 4503599627370496 (-52));
  mkVertex (S754_finite false 8534771653829827 (-49)) (S754_finite true 5424430939930572 (-47)) (S754_finite true 4895905376160973 (-47)) (S754_finite false 4503599627370496 (-52));
  mkVertex (S754_finite false 5715743467077265 (-49)) (S754_finite true 5560383353681818 (-47)) (S754_finite true 6479019161423551 (-48)) (S754_finite false 4503599627370496 (-52));
  mkVertex (S754_finite false 8561962136580076 (-48)) (S754_finite true 5232225752083700 (-47)) (S754_finite true 8639930705128928 (-48)) (S754_finite false 4503599627370496 (-52));
  mkVertex (S754_finite false 7530103019456483 (-48)) (S754_finite true 5424430939930572 (-47)) (S754_finite true 7608099735503005 (-48)) (S754_finite false 4503599627370496 (-52));
  mkVertex (S754_finite false 4980446385416018 (-48)) (S754_finite true 5560383353681818 (-47)) (S754_finite true 5058414953964870 (-48)) (S754_finite false 4503599627370496 (-52));
  mkVertex (S754_finite false 5527267822671810 (-47)) (S754_finite true 5232225752083700 (-47)) (S754_finite true 4915763435767910 (-48)) (S754_finite false 4503599627370496 (-52));
  mkVertex (S754_finite false 4856921091886547 (-47)) (S754_finite true 5424430939930572 (-47)) (S754_finite true 8690708790927530 (-49)) (S754_finite false 4503599627370496 (-52));
  mkVertex (S754_finite false 6401050592874699 (-48)) (S754_finite true 5560383353681818 (-47)) (S754_finite true 5871680604174968 (-49)) (S754_finite false 4503599627370496 (-52));
  mkVertex (S754_finite true 6283886633818889 (-47)) (S754_finite false 4978194585602333 (-48)) (S754_finite true 4990168531111604 (-52)) (S754_finite false 4503599627370496 (-52));
  mkVertex (S754_finite true 8152880479177644 (-47)) (S754_finite false 4950075235428939 (-48)) (S754_finite true 4990168531111604 (-52)) (S754_finite false 4503599627370496 (-52));
  mkVertex (S754_finite true 4767151684939101 (-46)) (S754_finite false 4753183489219835 (-48)) (S754_finite true 4990168531111604 (-52)) (S754_finite false 4503599627370496 (-52));
  mkVertex (S754_finite true 5195331419511351 (-46)) (S754_finite false 8437437606883282 (-49)) (S754_finite true 4990168531111604 (-52)) (S754_finite false 4503599627370496 (-52));
  mkVertex (S754_finite true 5342226172982224 (-46)) (S754_finite false 6355930154107981 (-49)) (S754_finite true 4990168531111604 (-52)) (S754_finite false 4503599627370496 (-52));
  mkVertex (S754_finite true 6221371041491452 (-47)) (S754_finite false 5259500677326963 (-48)) (S754_finite false 8306349080729595 (-51)) (S754_finite false 4503599627370496 (-52));
  mkVertex (S754_finite true 8208542155822177 (-47)) (S754_finite false 5226962170019211 (-48)) (S754_finite false 8306349080729595 (-51)) (S754_finite false 4503599627370496 (-52));
  mkVertex (S754_finite true 4833565705693980 (-46)) (S754_finite false 4999305208855632 (-48)) (S754_finite false 8306349080729595 (-51)) (S754_finite false 4503599627370496 (-52));
  mkVertex (S754_finite true 5282750510403263 (-46)) (S754_finite false 8762710089970116 (-49)) (S754_finite false 8306349080729595 (-51)) (S754_finite false 4503599627370496 (-52));
  mkVertex (S754_finite true 5435992524598962 (-46)) (S754_finite false 6355930154107981 (-49)) (S754_finite false 8306349080729595 (-51)) (S754_finite false 4503599627370496 (-52));
  mkVertex (S754_finite true 6083856441619461 (-47)) (S754_finite false 5878323413625340 (-48)) (S754_finite false 5953409678412674 (-50)) (S754_finite false 4503599627370496 (-52));
  mkVertex (S754_finite true 8331025991937819 (-47)) (S754_finite false 5836130314616413 (-48)) (S754_finite false 5953409678412674 (-50)) (S754_finite false 4503599627370496 (-52));
  mkVertex (S754_finite true 4979679366104482 (-46)) (S754_finite false 5540778621553921 (-48)) (S754_finite false 5953409678412674 (-50)) (S754_finite false 4503599627370496 (-52));
  mkVertex (S754_finite true 5475061251366401 (-46)) (S754_finite false 4739109740384302 (-48)) (S754_finite false 5953409678412674 (-50)) (S754_finite false 4503599627370496 (-52));
  mkVertex (S754_finite true 5642264424406948 (-46)) (S754_finite false 6355930154107981 (-49)) (S754_finite false 5953409678412674 (-50)) (S754_finite false 4503599627370496 (-52));
  mkVertex (S754_finite true 5946341841747470 (-47)) (S754_finite false 6497146149923717 (-48)) (S754_finite false 8306349080729595 (-51)) (S754_finite false 4503599627370496 (-52));
  mkVertex (S754_finite true 8453495754304625 (-47)) (S754_finite false 6445298459213614 (-48)) (S754_finite false 8306349080729595 (-51)) (S754_finite false 4503599627370496 (-52));
  mkVertex (S754_finite true 5125793026514983 (-46)) (S754_finite false 6082252034252210 (-48)) (S754_finite false 8306349080729595 (-51)) (S754_finite false 4503599627370496 (-52));
  mkVertex (S754_finite true 5667364955455121 (-46)) (S754_finite false 5096864435783546 (-48)) (S754_finite false 8306349080729595 (-51)) (S754_finite false 4503599627370496 (-52));
  mkVertex (S754_finite true 5848543361089352 (-46)) (S754_finite false 6355930154107981 (-49)) (S754_finite false 8306349080729595 (-51)) (S754_finite false 4503599627370496 (-52));
  mkVertex (S754_finite true 5883826249420033 (-47)) (S754_finite false 6778452241648347 (-48)) (S754_finite true 4990168531111604 (-52)) (S754_finite false 4503599627370496 (-52));
  mkVertex (S754_finite true 8509171504697993 (-47)) (S754_finite false 6722185393803887 (-48)) (S754_finite true 4990168531111604 (-52)) (S754_finite false 4503599627370496 (-52));
  mkVertex (S754_finite true 5192207047269863 (-46)) (S754_finite false 6328373753888008 (-48)) (S754_finite true 4990168531111604 (-52)) (S754_finite false 4503599627370496 (-52));
  mkVertex (S754_finite true 5754784046347033 (-46)) (S754_finite false 5259500677326963 (-48)) (S754_finite true 4990168531111604 (-52)) (S754_finite false 4503599627370496 (-52));
  mkVertex (S754_finite true 5942309712706090 (-46)) (S754_finite false 6355930154107981 (-49)) (S754_finite true 4990168531111604 (-52)) (S754_finite false 4503599627370496 (-52));
  mkVertex (S754_finite true 5946341841747470 (-47)) (S754_finite false 6497146149923717 (-48)) (S754_finite true 6648247546921531 (-50)) (S754_finite false 4503599627370496 (-52));
  mkVertex (S754_finite true 8453495754304625 (-47)) (S754_finite false 6445298459213614 (-48)) (S754_finite true 6648247546921531 (-50)) (S754_finite false 4503599627370496 (-52));
  mkVertex (S754_finite true 5125793026514983 (-46)) (S754_finite false 6082252034252210 (-48)) (S754_finite true 6648247546921531 (-50)) (S754_finite false 4503599627370496 (-52));
  mkVertex (S754_finite true 5667364955455121 (-46)) (S754_finite false 5096864435783546 (-48)) (S754_finite true 6648247546921531 (-50)) (S754_finite false 4503599627370496 (-52));
  mkVertex (S754_finite true 5848543361089352 (-46)) (S754_finite false 6355930154107981 (-49)) (S754_finite true 6648247546921531 (-50)) (S754_finite false 4503599627370496 (-52));
  mkVertex (S754_finite true 6083856441619461 (-47)) (S754_finite false 5878323413625340 (-48)) (S754_finite true 8448482684969408 (-50)) (S754_finite false 4503599627370496 (-52));
  mkVertex (S754_finite true 8331025991937819 (-47)) (S754_finite false 5836130314616413 (-48)) (S754_finite true 8448482684969408 (-50)) (S754_finite false 4503599627370496 (-52));
  mkVertex (S754_finite true 4979679366104482 (-46)) (S754_finite false 5540778621553921 (-48)) (S754_finite true 8448482684969408 (-50)) (S754_finite false 4503599627370496 (-52));
  mkVertex (S754_finite true 5475061251366401 (-46)) (S754_finite false 4739109740384302 (-48)) (S754_finite true 8448482684969408 (-50)) (S754_finite false 4503599627370496 (-52));
  mkVertex (S754_finite true 5642264424406948 (-46)) (S754_finite false 6355930154107981 (-49)) (S754_finite true 8448482684969408 (-50)) (S754_finite false 4503599627370496 (-52));
  mkVertex (S754_finite true 6221371041491452 (-47)) (S754_finite false 5259500677326963 (-48)) (S754_finite true 6648247546921531 (-50)) (S754_finite false 4503599627370496 (-52));
  mkVertex (S754_finite true 8208542155822177 (-47)) (S754_finite false 5226962170019211 (-48)) (S754_finite true 6648247546921531 (-50)) (S754_finite false 4503599627370496 (-52));
  mkVertex (S754_finite true 4833565705693980 (-46)) (S754_finite false 4999305208855632 (-48)) (S754_finite true 6648247546921531 (-50)) (S754_finite false 4503599627370496 (-52));
  mkVertex (S754_finite true 5282750510403263 (-46)) (S754_finite false 8762710089970116 (-49)) (S754_finite true 6648247546921531 (-50)) (S754_finite false 4503599627370496 (-52));
  mkVertex (S754_finite true 5435992524598962 (-46)) (S754_finite false 6355930154107981 (-49)) (S754_finite true 6648247546921531 (-50)) (S754_finite false 4503599627370496 (-52));
  mkVertex (S754_finite true 5264095756321764 (-46)) (S754_finite false 6186031858165429 (-50)) (S754_finite true 4990168531111604 (-52)) (S754_finite false 4503599627370496 (-52));
  mkVertex (S754_finite true 5017185906751177 (-46)) (S754_finite true 6760038148671936 (-52)) (S754_finite true 4990168531111604 (-52)) (S754_finite false 4503599627370496 (-52));
  mkVertex (S754_finite true 4582750390821532 (-46)) (S754_finite true 4783014207251630 (-49)) (S754_finite true 4990168531111604 (-52)) (S754_finite false 4503599627370496 (-52));
  mkVertex (S754_finite true 7884085950167803 (-47)) (S754_finite true 8045962209274102 (-49)) (S754_finite true 4990168531111604 (-52)) (S754_finite false 4503599627370496 (-52));
  mkVertex (S754_finite true 5349312305520915 (-46)) (S754_finite false 5556057083289776 (-50)) (S754_finite false 8306349080729595 (-51)) (S754_finite false 4503599627370496 (-52));
  mkVertex (S754_finite true 5077738211116057 (-46)) (S754_finite true 5302132877299559 (-51)) (S754_finite false 8306349080729595 (-51)) (S754_finite false 4503599627370496 (-52));
  mkVertex (S754_finite true 4603994714688769 (-46)) (S754_finite true 5376357828658159 (-49)) (S754_finite false 8306349080729595 (-51)) (S754_finite false 4503599627370496 (-52));
  mkVertex (S754_finite true 7821584431589202 (-47)) (S754_finite true 8796036727212658 (-49)) (S754_finite false 8306349080729595 (-51)) (S754_finite false 4503599627370496 (-52));
  mkVertex (S754_finite true 5536781676884630 (-46)) (S754_finite false 8340283703921832 (-51)) (S754_finite false 5953409678412674 (-50)) (S754_finite false 4503599627370496 (-52));
  mkVertex (S754_finite true 5210960317593210 (-46)) (S754_finite true 4765405132708611 (-50)) (S754_finite false 5953409678412674 (-50)) (S754_finite false 4503599627370496 (-52));
  mkVertex (S754_finite true 4650733634571574 (-46)) (S754_finite true 6681709292152894 (-49)) (S754_finite false 5953409678412674 (-50)) (S754_finite false 4503599627370496 (-52));
  mkVertex (S754_finite true 7684069831717211 (-47)) (S754_finite true 5223134110335946 (-48)) (S754_finite false 5953409678412674 (-50)) (S754_finite false 4503599627370496 (-52));
  mkVertex (S754_finite true 5724258085122762 (-46)) (S754_finite false 5568430723265976 (-51)) (S754_finite false 8306349080729595 (-51)) (S754_finite false 4503599627370496 (-52));
  mkVertex (S754_finite true 5344182424070364 (-46)) (S754_finite true 6879743826767443 (-50)) (S754_finite false 8306349080729595 (-51)) (S754_finite false 4503599627370496 (-52));
  mkVertex (S754_finite true 4697465517579960 (-46)) (S754_finite true 7987021349150890 (-49)) (S754_finite false 8306349080729595 (-51)) (S754_finite false 4503599627370496 (-52));
  mkVertex (S754_finite true 7546541158096385 (-47)) (S754_finite true 6048249857065563 (-48)) (S754_finite false 8306349080729595 (-51)) (S754_finite false 4503599627370496 (-52));
  mkVertex (S754_finite true 5809474634321913 (-46)) (S754_finite false 8617007383025612 (-52)) (S754_finite true 4990168531111604 (-52)) (S754_finite false 4503599627370496 (-52));
  mkVertex (S754_finite true 5404734728435243 (-46)) (S754_finite true 7840811987248307 (-50)) (S754_finite true 4990168531111604 (-52)) (S754_finite false 4503599627370496 (-52));
  mkVertex (S754_finite true 4718709841447197 (-46)) (S754_finite true 8580370600056953 (-49)) (S754_finite true 4990168531111604 (-52)) (S754_finite false 4503599627370496 (-52));
  mkVertex (S754_finite true 7484039639517784 (-47)) (S754_finite true 6423287116034841 (-48)) (S754_finite true 4990168531111604 (-52)) (S754_finite false 4503599627370496 (-52));
  mkVertex (S754_finite true 5724258085122762 (-46)) (S754_finite false 5568430723265976 (-51)) (S754_finite true 6648247546921531 (-50)) (S754_finite false 4503599627370496 (-52));
  mkVertex (S754_finite true 5344182424070364 (-46)) (S754_finite true 6879743826767443 (-50)) (S754_finite true 6648247546921531 (-50)) (S754_finite false 4503599627370496 (-52));
  mkVertex (S754_finite true 4697465517579960 (-46)) (S754_finite true 7987021349150890 (-49)) (S754_finite true 6648247546921531 (-50)) (S754_finite false 4503599627370496 (-52));
  mkVertex (S754_finite true 7546541158096385 (-47)) (S754_finite true 6048249857065563 (-48)) (S754_finite true 6648247546921531 (-50)) (S754_finite false 4503599627370496 (-52));
  mkVertex (S754_finite true 5536781676884630 (-46)) (S754_finite false 8340283703921832 (-51)) (S754_finite true 8448482684969408 (-50)) (S754_finite false 4503599627370496 (-52));
  mkVertex (S754_finite true 5210960317593210 (-46)) (S754_finite true 4765405132708611 (-50)) (S754_finite true 8448482684969408 (-50)) (S754_finite false 4503599627370496 (-52));
  mkVertex (S754_finite true 4650733634571574 (-46)) (S754_finite true 6681709292152894 (-49)) (S754_finite true 8448482684969408 (-50)) (S754_finite false 4503599627370496 (-52));
  mkVertex (S754_finite true 7684069831717211 (-47)) (S754_finite true 5223134110335946 (-48)) (S754_finite true 8448482684969408 (-50)) (S754_finite false 4503599627370496 (-52));
  mkVertex (S754_finite true 5349312305520915 (-46)) (S754_finite false 5556057083289776 (-50)) (S754_finite true 6648247546921531 (-50)) (S754_finite false 4503599627370496 (-52));
  mkVertex (S754_finite true 5077738211116057 (-46)) (S754_finite true 5302132877299559 (-51)) (S754_finite true 6648247546921531 (-50)) (S754_finite false 4503599627370496 (-52));
  mkVertex (S754_finite true 4603994714688769 (-46)) (S754_finite true 5376357828658159 (-49)) (S754_finite true 6648247546921531 (-50)) (S754_finite false 4503599627370496 (-52));
  mkVertex (S754_finite true 7821584431589202 (-47)) (S754_finite true 8796036727212658 (-49)) (S754_finite true 6648247546921531 (-50)) (S754_finite false 4503599627370496 (-52));
  mkVertex (S754_finite false 6917852723864299 (-47)) (S754_finite false 5682479880229507 (-53)) (S754_finite true 4990168531111604 (-52)) (S754_finite false 4503599627370496 (-52));
  mkVertex (S754_finite false 8836850598835703 (-47)) (S754_finite false 8471541115061545 (-51)) (S754_finite true 4990168531111604 (-52)) (S754_finite false 4503599627370496 (-52));
  mkVertex (S754_finite false 4834100508149731 (-46)) (S754_finite false 6355930154107981 (-49)) (S754_finite true 4990168531111604 (-52)) (S754_finite false 4503599627370496 (-52));
  mkVertex (S754_finite false 5062257087396970 (-46)) (S754_finite false 5747043484487490 (-48)) (S754_finite true 4990168531111604 (-52)) (S754_finite false 4503599627370496 (-52));
  mkVertex (S754_finite false 5459186062679920 (-46)) (S754_finite false 7978605247347242 (-48)) (S754_finite true 4990168531111604 (-52)) (S754_finite false 4503599627370496 (-52));
  mkVertex (S754_finite false 6917852723864299 (-47)) (S754_finite true 6830451928845873 (-51)) (S754_finite false 5317006015068950 (-49)) (S754_finite false 4503599627370496 (-52));
  mkVertex (S754_finite false 8983344250464764 (-47)) (S754_finite false 4707117294531369 (-52)) (S754_finite false 4740370748279966 (-49)) (S754_finite false 4503599627370496 (-52));
  mkVertex (S754_finite false 4927866859766468 (-46)) (S754_finite false 5465196960807576 (-49)) (S754_finite false 6943537315489146 (-50)) (S754_finite false 4503599627370496 (-52));
  mkVertex (S754_finite false 5176528891067079 (-46)) (S754_finite false 5585899060320639 (-48)) (S754_finite false 8812666268836723 (-51)) (S754_finite false 4503599627370496 (-52));
  mkVertex (S754_finite false 5646711729038977 (-46)) (S754_finite false 7978605247347242 (-48)) (S754_finite false 6506102683682650 (-51)) (S754_finite false 4503599627370496 (-52));
  mkVertex (S754_finite false 6917852723864299 (-47)) (S754_finite true 6245704553228088 (-49)) (S754_finite false 7297295066219099 (-49)) (S754_finite false 4503599627370496 (-52));
  mkVertex (S754_finite false 4652830623148068 (-46)) (S754_finite true 5553005894542232 (-50)) (S754_finite false 6528418019836271 (-49)) (S754_finite false 4503599627370496 (-52));
  mkVertex (S754_finite false 5134138759574454 (-46)) (S754_finite false 7011136345895978 (-50)) (S754_finite false 4836944812789392 (-49)) (S754_finite false 4503599627370496 (-52));
  mkVertex (S754_finite false 5427928266516201 (-46)) (S754_finite false 5231353179655897 (-48)) (S754_finite false 6290954470484093 (-50)) (S754_finite false 4503599627370496 (-52));
  mkVertex (S754_finite false 6059262565529367 (-46)) (S754_finite false 7978605247347242 (-48)) (S754_finite false 4753245413714711 (-50)) (S754_finite false 4503599627370496 (-52));
  mkVertex (S754_finite false 6917852723864299 (-47)) (S754_finite true 5391906506371655 (-48)) (S754_finite false 5317006015068950 (-49)) (S754_finite false 4503599627370496 (-52));
  mkVertex (S754_finite false 4813982084189336 (-46)) (S754_finite true 6141389926859119 (-49)) (S754_finite false 4740370748279966 (-49)) (S754_finite false 4503599627370496 (-52));
  mkVertex (S754_finite false 5340417696256859 (-46)) (S754_finite false 6183757540353607 (-51)) (S754_finite false 6943537315489146 (-50)) (S754_finite false 4503599627370496 (-52));
  mkVertex (S754_finite false 5679327641965324 (-46)) (S754_finite false 4876835446488826 (-48)) (S754_finite false 8812666268836723 (-51)) (S754_finite false 4503599627370496 (-52));
  mkVertex (S754_finite false 6471813402019758 (-46)) (S754_finite false 7978605247347242 (-48)) (S754_finite false 6506102683682650 (-51)) (S754_finite false 4503599627370496 (-52));
  mkVertex (S754_finite false 6917852723864299 (-47)) (S754_finite true 6423287116034841 (-48)) (S754_finite true 4990168531111604 (-52)) (S754_finite false 4503599627370496 (-52));
  mkVertex (S754_finite false 4887235946878285 (-46)) (S754_finite true 7670868655309482 (-49)) (S754_finite true 4990168531111604 (-52)) (S754_finite false 4503599627370496 (-52));
  mkVertex (S754_finite false 5434184047873596 (-46)) (S754_finite false 5241559462311425 (-52)) (S754_finite true 4990168531111604 (-52)) (S754_finite false 4503599627370496 (-52));
  mkVertex (S754_finite false 5793606482509850 (-46)) (S754_finite false 4715662874824304 (-48)) (S754_finite true 4990168531111604 (-52)) (S754_finite false 4503599627370496 (-52));
  mkVertex (S754_finite false 6659339068378815 (-46)) (S754_finite false 7978605247347242 (-48)) (S754_finite true 4990168531111604 (-52)) (S754_finite false 4503599627370496 (-52));
  mkVertex (S754_finite false 6917852723864299 (-47)) (S754_finite true 5391906506371655 (-48)) (S754_finite true 6564559406845919 (-49)) (S754_finite false 4503599627370496 (-52));
  mkVertex (S754_finite false 4813982084189336 (-46)) (S754_finite true 6141389926859119 (-49)) (S754_finite true 5987929769556469 (-49)) (S754_finite false 4503599627370496 (-52));
  mkVertex (S754_finite false 5340417696256859 (-46)) (S754_finite false 6183757540353607 (-51)) (S754_finite true 4719305161022940 (-49)) (S754_finite false 4503599627370496 (-52));
  mkVertex (S754_finite false 5679327641965324 (-46)) (S754_finite false 4876835446488826 (-48)) (S754_finite true 6901406140975095 (-50)) (S754_finite false 4503599627370496 (-52));
  mkVertex (S754_finite false 6471813402019758 (-46)) (S754_finite false 7978605247347242 (-48)) (S754_finite true 5748124348398059 (-50)) (S754_finite false 4503599627370496 (-52));
  mkVertex (S754_finite false 6917852723864299 (-47)) (S754_finite true 6245704553228088 (-49)) (S754_finite true 8544792163000726 (-49)) (S754_finite false 4503599627370496 (-52));
  mkVertex (S754_finite false 4652830623148068 (-46)) (S754_finite true 5553005894542232 (-50)) (S754_finite true 7775971411613241 (-49)) (S754_finite false 4503599627370496 (-52));
  mkVertex (S754_finite false 5134138759574454 (-46)) (S754_finite false 7011136345895978 (-50)) (S754_finite true 6084475686568224 (-49)) (S754_finite false 4503599627370496 (-52));
  mkVertex (S754_finite false 5427928266516201 (-46)) (S754_finite false 5231353179655897 (-48)) (S754_finite true 8786027477040827 (-50)) (S754_finite false 4503599627370496 (-52));
  mkVertex (S754_finite false 6059262565529367 (-46)) (S754_finite false 7978605247347242 (-48)) (S754_finite true 7248318420271445 (-50)) (S754_finite false 4503599627370496 (-52));
  mkVertex (S754_finite false 6917852723864299 (-47)) (S754_finite true 6830451928845873 (-51)) (S754_finite true 6564559406845919 (-49)) (S754_finite false 4503599627370496 (-52));
  mkVertex (S754_finite false 8983344250464764 (-47)) (S754_finite false 4707117294531369 (-52)) (S754_finite true 5987929769556469 (-49)) (S754_finite false 4503599627370496 (-52));
  mkVertex (S754_finite false 4927866859766468 (-46)) (S754_finite false 5465196960807576 (-49)) (S754_finite true 4719305161022940 (-49)) (S754_finite false 4503599627370496 (-52));
  mkVertex (S754_finite false 5176528891067079 (-46)) (S754_finite false 5585899060320639 (-48)) (S754_finite true 6901406140975095 (-50)) (S754_finite false 4503599627370496 (-52));
  mkVertex (S754_finite false 5646711729038977 (-46)) (S754_finite false 7978605247347242 (-48)) (S754_finite true 5748124348398059 (-50)) (S754_finite false 4503599627370496 (-52));
  mkVertex (S754_finite false 5602949407034887 (-46)) (S754_finite false 8316150039418660 (-48)) (S754_finite true 4990168531111604 (-52)) (S754_finite false 4503599627370496 (-52));
  mkVertex (S754_finite false 5709220284491996 (-46)) (S754_finite false 8428655587609910 (-48)) (S754_finite true 4990168531111604 (-52)) (S754_finite false 4503599627370496 (-52));
  mkVertex (S754_finite false 5740471043781296 (-46)) (S754_finite false 8316150039418660 (-48)) (S754_finite true 4990168531111604 (-52)) (S754_finite false 4503599627370496 (-52));
  mkVertex (S754_finite false 5659209218004930 (-46)) (S754_finite false 7978605247347242 (-48)) (S754_finite true 4990168531111604 (-52)) (S754_finite false 4503599627370496 (-52));
  mkVertex (S754_finite false 5803781802917940 (-46)) (S754_finite false 8332616325556234 (-48)) (S754_finite false 5943535536229665 (-51)) (S754_finite false 4503599627370496 (-52));
  mkVertex (S754_finite false 5897717039520704 (-46)) (S754_finite false 8455029792927698 (-48)) (S754_finite false 4705878804633842 (-51)) (S754_finite false 4503599627370496 (-52));
  mkVertex (S754_finite false 5900524752413393 (-46)) (S754_finite false 8339202840011263 (-48)) (S754_finite false 6936399110079764 (-52)) (S754_finite false 4503599627370496 (-52));
  mkVertex (S754_finite false 5784226328910968 (-46)) (S754_finite false 7978605247347242 (-48)) (S754_finite false 5811264815173793 (-52)) (S754_finite false 4503599627370496 (-52));
  mkVertex (S754_finite false 6245613073860657 (-46)) (S754_finite false 8368870302556566 (-48)) (S754_finite false 8756393791492729 (-51)) (S754_finite false 4503599627370496 (-52));
  mkVertex (S754_finite false 6312421159582931 (-46)) (S754_finite false 8513041785627764 (-48)) (S754_finite false 7106184816031632 (-51)) (S754_finite false 4503599627370496 (-52));
  mkVertex (S754_finite false 6252649948278424 (-46)) (S754_finite false 8389980925809866 (-48)) (S754_finite false 5455975840570535 (-51)) (S754_finite false 4503599627370496 (-52));
  mkVertex (S754_finite false 6059262565529367 (-46)) (S754_finite false 7978605247347242 (-48)) (S754_finite false 4705878804633842 (-51)) (S754_finite false 4503599627370496 (-52));
  mkVertex (S754_finite false 6687444344803374 (-46)) (S754_finite false 8405152427054570 (-48)) (S754_finite false 5943535536229665 (-51)) (S754_finite false 4503599627370496 (-52));
  mkVertex (S754_finite false 6727125279645159 (-46)) (S754_finite false 8571053778327831 (-48)) (S754_finite false 4705878804633842 (-51)) (S754_finite false 4503599627370496 (-52));
  mkVertex (S754_finite false 6604768107269036 (-46)) (S754_finite false 8440730864110797 (-48)) (S754_finite false 6936399110079764 (-52)) (S754_finite false 4503599627370496 (-52));
  mkVertex (S754_finite false 6334298802147767 (-46)) (S754_finite false 7978605247347242 (-48)) (S754_finite false 5811264815173793 (-52)) (S754_finite false 4503599627370496 (-52));
  mkVertex (S754_finite false 6888276740686427 (-46)) (S754_finite false 8421618713192143 (-48)) (S754_finite true 4990168531111604 (-52)) (S754_finite false 4503599627370496 (-52));
  mkVertex (S754_finite false 6915622034673867 (-46)) (S754_finite false 8597427983645619 (-48)) (S754_finite true 4990168531111604 (-52)) (S754_finite false 4503599627370496 (-52));
  mkVertex (S754_finite false 6764821815901133 (-46)) (S754_finite false 8463811812201071 (-48)) (S754_finite true 4990168531111604 (-52)) (S754_finite false 4503599627370496 (-52));
  mkVertex (S754_finite false 6459315913053805 (-46)) (S754_finite false 7978605247347242 (-48)) (S754_finite true 4990168531111604 (-52)) (S754_finite false 4503599627370496 (-52));
  mkVertex (S754_finite false 6687444344803374 (-46)) (S754_finite false 8405152427054570 (-48)) (S754_finite true 5466840774671566 (-50)) (S754_finite false 4503599627370496 (-52));
  mkVertex (S754_finite false 6727125279645159 (-46)) (S754_finite false 8571053778327831 (-48)) (S754_finite true 4848012408873655 (-50)) (S754_finite false 4503599627370496 (-52));
  mkVertex (S754_finite false 6604768107269036 (-46)) (S754_finite false 8440730864110797 (-48)) (S754_finite true 8458345568153350 (-51)) (S754_finite false 4503599627370496 (-52));
  mkVertex (S754_finite false 6334298802147767 (-46)) (S754_finite false 7978605247347242 (-48)) (S754_finite true 7895778420700364 (-51)) (S754_finite false 4503599627370496 (-52));
  mkVertex (S754_finite false 6245613073860657 (-46)) (S754_finite false 8368870302556566 (-48)) (S754_finite true 6873269902303098 (-50)) (S754_finite false 4503599627370496 (-52));
  mkVertex (S754_finite false 6312421159582931 (-46)) (S754_finite false 8513041785627764 (-48)) (S754_finite true 6048165414572550 (-50)) (S754_finite false 4503599627370496 (-52));
  mkVertex (S754_finite false 6252649948278424 (-46)) (S754_finite false 8389980925809866 (-48)) (S754_finite true 5223060926842001 (-50)) (S754_finite false 4503599627370496 (-52));
  mkVertex (S754_finite false 6059262565529367 (-46)) (S754_finite false 7978605247347242 (-48)) (S754_finite true 4848012408873655 (-50)) (S754_finite false 4503599627370496 (-52));
  mkVertex (S754_finite false 5803781802917940 (-46)) (S754_finite false 8332616325556234 (-48)) (S754_finite true 5466840774671566 (-50)) (S754_finite false 4503599627370496 (-52));
  mkVertex (S754_finite false 5897717039520704 (-46)) (S754_finite false 8455029792927698 (-48)) (S754_finite true 4848012408873655 (-50)) (S754_finite false 4503599627370496 (-52));
  mkVertex (S754_finite false 5900524752413393 (-46)) (S754_finite false 8339202840011263 (-48)) (S754_finite true 8458345568153350 (-51)) (S754_finite false 4503599627370496 (-52));
  mkVertex (S754_finite false 5784226328910968 (-46)) (S754_finite false 7978605247347242 (-48)) (S754_finite true 7895778420700364 (-51)) (S754_finite false 4503599627370496 (-52));
  mkVertex (S754_finite false 7485207760671133 (-53)) (S754_finite false 6989685137920859 (-47)) (S754_finite true 4990168531111604 (-52)) (S754_finite false 4503599627370496 (-52));
  mkVertex (S754_finite false 5918518040299622 (-49)) (S754_finite false 6792793391711755 (-47)) (S754_finite true 4990168531111604 (-52)) (S754_finite false 4503599627370496 (-52));
  mkVertex (S754_finite false 5668511965985217 (-49)) (S754_finite false 6314609627526857 (-47)) (S754_finite true 4990168531111604 (-52)) (S754_finite false 4503599627370496 (-52));
  mkVertex (S754_finite false 7236473953251460 (-50)) (S754_finite false 5723906241401874 (-47)) (S754_finite true 4990168531111604 (-52)) (S754_finite false 4503599627370496 (-52));
  mkVertex (S754_finite false 7336487641976291 (-50)) (S754_finite false 5189455629372516 (-47)) (S754_finite true 4990168531111604 (-52)) (S754_finite false 4503599627370496 (-52));
  mkVertex (S754_finite false 5498005684092970 (-49)) (S754_finite false 6792793391711755 (-47)) (S754_finite false 6085331370497425 (-51)) (S754_finite false 4503599627370496 (-52));
  mkVertex (S754_finite false 5267139908194890 (-49)) (S754_finite false 6314609627526857 (-47)) (S754_finite false 5690253093186348 (-51)) (S754_finite false 4503599627370496 (-52));
  mkVertex (S754_finite false 6749432171549478 (-50)) (S754_finite false 5723906241401874 (-47)) (S754_finite false 4917345325137023 (-52)) (S754_finite false 4503599627370496 (-52));
  mkVertex (S754_finite false 6840427402020499 (-50)) (S754_finite false 5189455629372516 (-47)) (S754_finite false 5059163677402920 (-52)) (S754_finite false 4503599627370496 (-52));
  mkVertex (S754_finite false 8685788608334628 (-50)) (S754_finite false 6792793391711755 (-47)) (S754_finite false 6502601134972370 (-50)) (S754_finite false 4503599627370496 (-52));
  mkVertex (S754_finite false 8329621431804032 (-50)) (S754_finite false 6314609627526857 (-47)) (S754_finite false 6146433958441774 (-50)) (S754_finite false 4503599627370496 (-52));
  mkVertex (S754_finite false 5412606176158957 (-50)) (S754_finite false 5723906241401874 (-47)) (S754_finite false 6458837405593397 (-51)) (S754_finite false 4503599627370496 (-52));
  mkVertex (S754_finite false 5480250242562062 (-50)) (S754_finite false 5189455629372516 (-47)) (S754_finite false 6594125538399607 (-51)) (S754_finite false 4503599627370496 (-52));
  mkVertex (S754_finite false 5225853158610971 (-50)) (S754_finite false 6792793391711755 (-47)) (S754_finite false 8812823894823681 (-50)) (S754_finite false 4503599627370496 (-52));
  mkVertex (S754_finite false 5028314019955432 (-50)) (S754_finite false 6314609627526857 (-47)) (S754_finite false 8351092343027521 (-50)) (S754_finite false 4503599627370496 (-52));
  mkVertex (S754_finite false 6825047609293029 (-51)) (S754_finite false 5723906241401874 (-47)) (S754_finite false 4566244698187220 (-50)) (S754_finite false 4503599627370496 (-52));
  mkVertex (S754_finite false 6895956785425977 (-51)) (S754_finite false 5189455629372516 (-47)) (S754_finite false 4657239928658240 (-50)) (S754_finite false 4503599627370496 (-52));
  mkVertex (S754_finite false 7485207760671133 (-53)) (S754_finite false 6792793391711755 (-47)) (S754_finite false 4826946821616629 (-49)) (S754_finite false 4503599627370496 (-52));
  mkVertex (S754_finite false 7485207760671133 (-53)) (S754_finite false 6314609627526857 (-47)) (S754_finite false 4576912599804553 (-49)) (S754_finite false 4503599627370496 (-52));
  mkVertex (S754_finite false 7485207760671133 (-53)) (S754_finite false 5723906241401874 (-47)) (S754_finite false 5053286479889202 (-50)) (S754_finite false 4503599627370496 (-52));
  mkVertex (S754_finite false 7485207760671133 (-53)) (S754_finite false 5189455629372516 (-47)) (S754_finite false 5153300168614032 (-50)) (S754_finite false 4503599627370496 (-52));
  mkVertex (S754_finite true 6709102436886375 (-51)) (S754_finite false 6792793391711755 (-47)) (S754_finite false 8812823894823681 (-50)) (S754_finite false 4503599627370496 (-52));
  mkVertex (S754_finite true 6314024159575299 (-51)) (S754_finite false 6314609627526857 (-47)) (S754_finite false 8351092343027521 (-50)) (S754_finite false 4503599627370496 (-52));
  mkVertex (S754_finite true 6164887457914925 (-52)) (S754_finite false 5723906241401874 (-47)) (S754_finite false 4566244698187220 (-50)) (S754_finite false 4503599627370496 (-52));
  mkVertex (S754_finite true 6306705810180821 (-52)) (S754_finite false 5189455629372516 (-47)) (S754_finite false 4657239928658240 (-50)) (S754_finite false 4503599627370496 (-52));
  mkVertex (S754_finite true 6814486668166845 (-50)) (S754_finite false 6792793391711755 (-47)) (S754_finite false 6502601134972370 (-50)) (S754_finite false 4503599627370496 (-52));
  mkVertex (S754_finite true 6458319491636249 (-50)) (S754_finite false 6314609627526857 (-47)) (S754_finite false 6146433958441774 (-50)) (S754_finite false 4503599627370496 (-52));
  mkVertex (S754_finite true 7082608471982347 (-51)) (S754_finite false 5723906241401874 (-47)) (S754_finite false 6458837405593397 (-51)) (S754_finite false 4503599627370496 (-52));
  mkVertex (S754_finite true 7217896604788557 (-51)) (S754_finite false 5189455629372516 (-47)) (S754_finite false 6594125538399607 (-51)) (S754_finite false 4503599627370496 (-52));
  mkVertex (S754_finite true 4562354714009078 (-49)) (S754_finite false 6792793391711755 (-47)) (S754_finite false 6085331370497425 (-51)) (S754_finite false 4503599627370496 (-52));
  mkVertex (S754_finite true 8662977876221997 (-50)) (S754_finite false 6314609627526857 (-47)) (S754_finite false 5690253093186348 (-51)) (S754_finite false 4503599627370496 (-52));
  mkVertex (S754_finite true 4878130231381695 (-50)) (S754_finite false 5723906241401874 (-47)) (S754_finite false 4917345325137023 (-52)) (S754_finite false 4503599627370496 (-52));
  mkVertex (S754_finite true 4969125461852716 (-50)) (S754_finite false 5189455629372516 (-47)) (S754_finite false 5059163677402920 (-52)) (S754_finite false 4503599627370496 (-52));
  mkVertex (S754_finite true 4982889588213867 (-49)) (S754_finite false 6792793391711755 (-47)) (S754_finite true 4990168531111604 (-52)) (S754_finite false 4503599627370496 (-52));
  mkVertex (S754_finite true 4732855366401791 (-49)) (S754_finite false 6314609627526857 (-47)) (S754_finite true 4990168531111604 (-52)) (S754_finite false 4503599627370496 (-52));
  mkVertex (S754_finite true 5365172013083677 (-50)) (S754_finite false 5723906241401874 (-47)) (S754_finite true 4990168531111604 (-52)) (S754_finite false 4503599627370496 (-52));
  mkVertex (S754_finite true 5465185701808507 (-50)) (S754_finite false 5189455629372516 (-47)) (S754_finite true 4990168531111604 (-52)) (S754_finite false 4503599627370496 (-52));
  mkVertex (S754_finite true 4562354714009078 (-49)) (S754_finite false 6792793391711755 (-47)) (S754_finite true 5537738691805446 (-50)) (S754_finite false 4503599627370496 (-52));
  mkVertex (S754_finite true 8662977876221997 (-50)) (S754_finite false 6314609627526857 (-47)) (S754_finite true 5340199553149908 (-50)) (S754_finite false 4503599627370496 (-52));
  mkVertex (S754_finite true 4878130231381695 (-50)) (S754_finite false 5723906241401874 (-47)) (S754_finite true 7448818675681979 (-51)) (S754_finite false 4503599627370496 (-52));
  mkVertex (S754_finite true 4969125461852716 (-50)) (S754_finite false 5189455629372516 (-47)) (S754_finite true 7519727851814928 (-51)) (S754_finite false 4503599627370496 (-52));
  mkVertex (S754_finite true 6814486668166845 (-50)) (S754_finite false 6792793391711755 (-47)) (S754_finite true 8997674141529103 (-50)) (S754_finite false 4503599627370496 (-52));
  mkVertex (S754_finite true 6458319491636249 (-50)) (S754_finite false 6314609627526857 (-47)) (S754_finite true 8641506964998508 (-50)) (S754_finite false 4503599627370496 (-52));
  mkVertex (S754_finite true 7082608471982347 (-51)) (S754_finite false 5723906241401874 (-47)) (S754_finite true 5724491709353432 (-50)) (S754_finite false 4503599627370496 (-52));
  mkVertex (S754_finite true 7217896604788557 (-51)) (S754_finite false 5189455629372516 (-47)) (S754_finite true 5792135775756537 (-50)) (S754_finite false 4503599627370496 (-52));
  mkVertex (S754_finite true 6709102436886375 (-51)) (S754_finite false 6792793391711755 (-47)) (S754_finite true 5653931562191605 (-49)) (S754_finite false 4503599627370496 (-52));
  mkVertex (S754_finite true 6314024159575299 (-51)) (S754_finite false 6314609627526857 (-47)) (S754_finite true 5423082674792128 (-49)) (S754_finite false 4503599627370496 (-52));
  mkVertex (S754_finite true 6164887457914925 (-52)) (S754_finite false 5723906241401874 (-47)) (S754_finite true 7061317704743953 (-50)) (S754_finite false 4503599627370496 (-52));
  mkVertex (S754_finite true 6306705810180821 (-52)) (S754_finite false 5189455629372516 (-47)) (S754_finite true 7152312935214974 (-50)) (S754_finite false 4503599627370496 (-52));
  mkVertex (S754_finite false 7485207760671133 (-53)) (S754_finite false 6792793391711755 (-47)) (S754_finite true 6074455177397325 (-49)) (S754_finite false 4503599627370496 (-52));
  mkVertex (S754_finite false 7485207760671133 (-53)) (S754_finite false 6314609627526857 (-47)) (S754_finite true 5824449103082920 (-49)) (S754_finite false 4503599627370496 (-52));
  mkVertex (S754_finite false 7485207760671133 (-53)) (S754_finite false 5723906241401874 (-47)) (S754_finite true 7548359486445936 (-50)) (S754_finite false 4503599627370496 (-52));
  mkVertex (S754_finite false 7485207760671133 (-53)) (S754_finite false 5189455629372516 (-47)) (S754_finite true 7648373175170766 (-50)) (S754_finite false 4503599627370496 (-52));
  mkVertex (S754_finite false 5225853158610971 (-50)) (S754_finite false 6792793391711755 (-47)) (S754_finite true 5653931562191605 (-49)) (S754_finite false 4503599627370496 (-52));
  mkVertex (S754_finite false 5028314019955432 (-50)) (S754_finite false 6314609627526857 (-47)) (S754_finite true 5423082674792128 (-49)) (S754_finite false 4503599627370496 (-52));
  mkVertex (S754_finite false 6825047609293029 (-51)) (S754_finite false 5723906241401874 (-47)) (S754_finite true 7061317704743953 (-50)) (S754_finite false 4503599627370496 (-52));
  mkVertex (S754_finite false 6895956785425977 (-51)) (S754_finite false 5189455629372516 (-47)) (S754_finite true 7152312935214974 (-50)) (S754_finite false 4503599627370496 (-52));
  mkVertex (S754_finite false 8685788608334628 (-50)) (S754_finite false 6792793391711755 (-47)) (S754_finite true 8997674141529103 (-50)) (S754_finite false 4503599627370496 (-52));
  mkVertex (S754_finite false 8329621431804032 (-50)) (S754_finite false 6314609627526857 (-47)) (S754_finite true 8641506964998508 (-50)) (S754_finite false 4503599627370496 (-52));
  mkVertex (S754_finite false 5412606176158957 (-50)) (S754_finite false 5723906241401874 (-47)) (S754_finite true 5724491709353432 (-50)) (S754_finite false 4503599627370496 (-52));
  mkVertex (S754_finite false 5480250242562062 (-50)) (S754_finite false 5189455629372516 (-47)) (S754_finite true 5792135775756537 (-50)) (S754_finite false 4503599627370496 (-52));
  mkVertex (S754_finite false 5498005684092970 (-49)) (S754_finite false 6792793391711755 (-47)) (S754_finite true 5537738691805446 (-50)) (S754_finite false 4503599627370496 (-52));
  mkVertex (S754_finite false 5267139908194890 (-49)) (S754_finite false 6314609627526857 (-47)) (S754_finite true 5340199553149908 (-50)) (S754_finite false 4503599627370496 (-52));
  mkVertex (S754_finite false 6749432171549478 (-50)) (S754_finite false 5723906241401874 (-47)) (S754_finite true 7448818675681979 (-51)) (S754_finite false 4503599627370496 (-52));
  mkVertex (S754_finite false 6840427402020499 (-50)) (S754_finite false 5189455629372516 (-47)) (S754_finite true 7519727851814928 (-51)) (S754_finite false 4503599627370496 (-52));
  mkVertex (S754_finite false 7768765652209448 (-49)) (S754_finite false 4833164603852168 (-47)) (S754_finite true 4990168531111604 (-52)) (S754_finite false 4503599627370496 (-52));
  mkVertex (S754_finite false 6834775384488149 (-48)) (S754_finite false 4589379126523068 (-47)) (S754_finite true 4990168531111604 (-52)) (S754_finite false 4503599627370496 (-52));
  mkVertex (S754_finite false 4742557808849007 (-47)) (S754_finite false 8691187298387939 (-48)) (S754_finite true 4990168531111604 (-52)) (S754_finite false 4503599627370496 (-52));
  mkVertex (S754_finite false 5317639333766549 (-47)) (S754_finite false 7978605247347242 (-48)) (S754_finite true 4990168531111604 (-52)) (S754_finite false 4503599627370496 (-52));
  mkVertex (S754_finite false 7202944654025687 (-49)) (S754_finite false 4833164603852168 (-47)) (S754_finite false 8967432470031311 (-51)) (S754_finite false 4503599627370496 (-52));
  mkVertex (S754_finite false 6323222761814203 (-48)) (S754_finite false 4589379126523068 (-47)) (S754_finite false 4557907409377050 (-49)) (S754_finite false 4503599627370496 (-52));
  mkVertex (S754_finite false 8768142557020632 (-48)) (S754_finite false 8691187298387939 (-48)) (S754_finite false 6638418440734795 (-49)) (S754_finite false 4503599627370496 (-52));
  mkVertex (S754_finite false 4914581240865725 (-47)) (S754_finite false 7978605247347242 (-48)) (S754_finite false 7541277576031896 (-49)) (S754_finite false 4503599627370496 (-52));
  mkVertex (S754_finite false 5651510877391893 (-49)) (S754_finite false 4833164603852168 (-47)) (S754_finite false 4559911511211230 (-49)) (S754_finite false 4503599627370496 (-52));
  mkVertex (S754_finite false 4920520362874320 (-48)) (S754_finite false 4589379126523068 (-47)) (S754_finite false 8749480766064715 (-49)) (S754_finite false 4503599627370496 (-52));
  mkVertex (S754_finite false 6802265024678068 (-48)) (S754_finite false 8691187298387939 (-48)) (S754_finite false 6256485044836106 (-48)) (S754_finite false 4503599627370496 (-52));
  mkVertex (S754_finite false 7618880227111023 (-48)) (S754_finite false 7978605247347242 (-48)) (S754_finite false 7073072099771390 (-48)) (S754_finite false 4503599627370496 (-52));
  mkVertex (S754_finite false 6666903708377914 (-50)) (S754_finite false 4833164603852168 (-47)) (S754_finite false 6111384694341763 (-49)) (S754_finite false 4503599627370496 (-52));
  mkVertex (S754_finite false 5649484257559577 (-49)) (S754_finite false 4589379126523068 (-47)) (S754_finite false 5777414634474570 (-48)) (S754_finite false 4503599627370496 (-52));
  mkVertex (S754_finite false 7730034695414061 (-49)) (S754_finite false 8691187298387939 (-48)) (S754_finite false 8222362577178670 (-48)) (S754_finite false 4503599627370496 (-52));
  mkVertex (S754_finite false 8632893830711162 (-49)) (S754_finite false 7978605247347242 (-48)) (S754_finite false 4641691250944744 (-47)) (S754_finite false 4503599627370496 (-52));
  mkVertex (S754_finite false 7485207760671133 (-53)) (S754_finite false 4833164603852168 (-47)) (S754_finite false 6677205692525524 (-49)) (S754_finite false 4503599627370496 (-52));
  mkVertex (S754_finite false 7485207760671133 (-53)) (S754_finite false 4589379126523068 (-47)) (S754_finite false 6288967257148516 (-48)) (S754_finite false 4503599627370496 (-52));
  mkVertex (S754_finite false 7485207760671133 (-53)) (S754_finite false 8691187298387939 (-48)) (S754_finite false 8939335637856053 (-48)) (S754_finite false 4503599627370496 (-52));
  mkVertex (S754_finite false 7485207760671133 (-53)) (S754_finite false 7978605247347242 (-48)) (S754_finite false 5044735270096732 (-47)) (S754_finite false 4503599627370496 (-52));
  mkVertex (S754_finite true 4795601768210131 (-50)) (S754_finite false 4833164603852168 (-47)) (S754_finite false 6111384694341763 (-49)) (S754_finite false 4503599627370496 (-52));
  mkVertex (S754_finite true 4713850175974288 (-49)) (S754_finite false 4589379126523068 (-47)) (S754_finite false 5777414634474570 (-48)) (S754_finite false 4503599627370496 (-52));
  mkVertex (S754_finite true 6794355577832499 (-49)) (S754_finite false 8691187298387939 (-48)) (S754_finite false 8222362577178670 (-48)) (S754_finite false 4503599627370496 (-52));
  mkVertex (S754_finite true 7697214713129599 (-49)) (S754_finite false 7978605247347242 (-48)) (S754_finite false 4641691250944744 (-47)) (S754_finite false 4503599627370496 (-52));
  mkVertex (S754_finite true 4715854277808467 (-49)) (S754_finite false 4833164603852168 (-47)) (S754_finite false 4559911511211230 (-49)) (S754_finite false 4503599627370496 (-52));
  mkVertex (S754_finite true 8905417903162419 (-49)) (S754_finite false 4589379126523068 (-47)) (S754_finite false 8749480766064715 (-49)) (S754_finite false 4503599627370496 (-52));
  mkVertex (S754_finite true 6334453613384958 (-48)) (S754_finite false 8691187298387939 (-48)) (S754_finite false 6256485044836106 (-48)) (S754_finite false 4503599627370496 (-52));
  mkVertex (S754_finite true 7151040668320242 (-48)) (S754_finite false 7978605247347242 (-48)) (S754_finite false 7073072099771390 (-48)) (S754_finite false 4503599627370496 (-52));
  mkVertex (S754_finite true 6267321831439466 (-49)) (S754_finite false 4833164603852168 (-47)) (S754_finite false 8967432470031311 (-51)) (S754_finite false 4503599627370496 (-52));
  mkVertex (S754_finite true 5855383203023421 (-48)) (S754_finite false 4589379126523068 (-47)) (S754_finite false 4557907409377050 (-49)) (S754_finite false 4503599627370496 (-52));
  mkVertex (S754_finite true 8300331145727522 (-48)) (S754_finite false 8691187298387939 (-48)) (S754_finite false 6638418440734795 (-49)) (S754_finite false 4503599627370496 (-52));
  mkVertex (S754_finite true 4680675535219170 (-47)) (S754_finite false 7978605247347242 (-48)) (S754_finite false 7541277576031896 (-49)) (S754_finite false 4503599627370496 (-52));
  mkVertex (S754_finite true 6833142829623227 (-49)) (S754_finite false 4833164603852168 (-47)) (S754_finite true 4990168531111604 (-52)) (S754_finite false 4503599627370496 (-52));
  mkVertex (S754_finite true 6366963973195039 (-48)) (S754_finite false 4589379126523068 (-47)) (S754_finite true 4990168531111604 (-52)) (S754_finite false 4503599627370496 (-52));
  mkVertex (S754_finite true 4508652103202452 (-47)) (S754_finite false 8691187298387939 (-48)) (S754_finite true 4990168531111604 (-52)) (S754_finite false 4503599627370496 (-52));
  mkVertex (S754_finite true 5083719554371158 (-47)) (S754_finite false 7978605247347242 (-48)) (S754_finite true 4990168531111604 (-52)) (S754_finite false 4503599627370496 (-52));
  mkVertex (S754_finite true 6267321831439466 (-49)) (S754_finite false 4833164603852168 (-47)) (S754_finite true 6978789241572389 (-50)) (S754_finite false 4503599627370496 (-52));
  mkVertex (S754_finite true 5855383203023421 (-48)) (S754_finite false 4589379126523068 (-47)) (S754_finite true 5805421394657280 (-49)) (S754_finite false 4503599627370496 (-52));
  mkVertex (S754_finite true 8300331145727522 (-48)) (S754_finite false 8691187298387939 (-48)) (S754_finite true 7885971832511765 (-49)) (S754_finite false 4503599627370496 (-52));
  mkVertex (S754_finite true 4680675535219170 (-47)) (S754_finite false 7978605247347242 (-48)) (S754_finite true 8788830967808865 (-49)) (S754_finite false 4503599627370496 (-52));
  mkVertex (S754_finite true 4715854277808467 (-49)) (S754_finite false 4833164603852168 (-47)) (S754_finite true 5807448014489597 (-49)) (S754_finite false 4503599627370496 (-52));
  mkVertex (S754_finite true 8905417903162419 (-49)) (S754_finite false 4589379126523068 (-47)) (S754_finite true 4998488931423171 (-48)) (S754_finite false 4503599627370496 (-52));
  mkVertex (S754_finite true 6334453613384958 (-48)) (S754_finite false 8691187298387939 (-48)) (S754_finite true 6880233593226920 (-48)) (S754_finite false 4503599627370496 (-52));
  mkVertex (S754_finite true 7151040668320242 (-48)) (S754_finite false 7978605247347242 (-48)) (S754_finite true 7696848795659875 (-48)) (S754_finite false 4503599627370496 (-52));
  mkVertex (S754_finite true 4795601768210131 (-50)) (S754_finite false 4833164603852168 (-47)) (S754_finite true 7358881791123390 (-49)) (S754_finite false 4503599627370496 (-52));
  mkVertex (S754_finite true 4713850175974288 (-49)) (S754_finite false 4589379126523068 (-47)) (S754_finite true 6401191330363054 (-48)) (S754_finite false 4503599627370496 (-52));
  mkVertex (S754_finite true 6794355577832499 (-49)) (S754_finite false 8691187298387939 (-48)) (S754_finite true 8846111125569484 (-48)) (S754_finite false 4503599627370496 (-52));
  mkVertex (S754_finite true 7697214713129599 (-49)) (S754_finite false 7978605247347242 (-48)) (S754_finite true 4953565525140151 (-47)) (S754_finite false 4503599627370496 (-52));
  mkVertex (S754_finite false 7485207760671133 (-53)) (S754_finite false 4833164603852168 (-47)) (S754_finite true 7924702789307151 (-49)) (S754_finite false 4503599627370496 (-52));
  mkVertex (S754_finite false 7485207760671133 (-53)) (S754_finite false 4589379126523068 (-47)) (S754_finite true 6912743953037001 (-48)) (S754_finite false 4503599627370496 (-52));
  mkVertex (S754_finite false 7485207760671133 (-53)) (S754_finite false 8691187298387939 (-48)) (S754_finite true 4781542093123433 (-47)) (S754_finite false 4503599627370496 (-52));
  mkVertex (S754_finite false 7485207760671133 (-53)) (S754_finite false 7978605247347242 (-48)) (S754_finite true 5356623618040975 (-47)) (S754_finite false 4503599627370496 (-52));
  mkVertex (S754_finite false 6666903708377914 (-50)) (S754_finite false 4833164603852168 (-47)) (S754_finite true 7358881791123390 (-49)) (S754_finite false 4503599627370496 (-52));
  mkVertex (S754_finite false 5649484257559577 (-49)) (S754_finite false 4589379126523068 (-47)) (S754_finite true 6401191330363054 (-48)) (S754_finite false 4503599627370496 (-52));
  mkVertex (S754_finite false 7730034695414061 (-49)) (S754_finite false 8691187298387939 (-48)) (S754_finite true 8846111125569484 (-48)) (S754_finite false 4503599627370496 (-52));
  mkVertex (S754_finite false 8632893830711162 (-49)) (S754_finite false 7978605247347242 (-48)) (S754_finite true 4953565525140151 (-47)) (S754_finite false 4503599627370496 (-52));
  mkVertex (S754_finite false 5651510877391893 (-49)) (S754_finite false 4833164603852168 (-47)) (S754_finite true 5807448014489597 (-49)) (S754_finite false 4503599627370496 (-52));
  mkVertex (S754_finite false 4920520362874320 (-48)) (S754_finite false 4589379126523068 (-47)) (S754_finite true 4998488931423171 (-48)) (S754_finite false 4503599627370496 (-52));
  mkVertex (S754_finite false 6802265024678068 (-48)) (S754_finite false 8691187298387939 (-48)) (S754_finite true 6880233593226920 (-48)) (S754_finite false 4503599627370496 (-52));
  mkVertex (S754_finite false 7618880227111023 (-48)) (S754_finite false 7978605247347242 (-48)) (S754_finite true 7696848795659875 (-48)) (S754_finite false 4503599627370496 (-52));
  mkVertex (S754_finite false 7202944654025687 (-49)) (S754_finite false 4833164603852168 (-47)) (S754_finite true 6978789241572389 (-50)) (S754_finite false 4503599627370496 (-52));
  mkVertex (S754_finite false 6323222761814203 (-48)) (S754_finite false 4589379126523068 (-47)) (S754_finite true 5805421394657280 (-49)) (S754_finite false 4503599627370496 (-52));
  mkVertex (S754_finite false 8768142557020632 (-48)) (S754_finite false 8691187298387939 (-48)) (S754_finite true 7885971832511765 (-49)) (S754_finite false 4503599627370496 (-52));
  mkVertex (S754_finite false 4914581240865725 (-47)) (S754_finite false 7978605247347242 (-48)) (S754_finite true 8788830967808865 (-49)) (S754_finite false 4503599627370496 (-52))].

(** tests/test_obj_parser.rs:1592 *)
Definition normals : list normal_vertex := [
  mkNormalVertex (S754_finite true 8707637821926816 (-53)) (S754_finite true 4607218447597036 (-54)) (S754_finite false 6027891520100581 (-79));
  mkNormalVertex (S754_finite true 8708376412265705 (-53)) (S754_finite false 4601651998457606 (-54)) (S754_finite false 4701950748090903 (-77));
  mkNormalVertex (S754_finite true 6633045646379342 (-56)) (S754_finite false 8968954686705362 (-53)) (S754_finite false 6739595217051361 (-77));
  mkNormalVertex (S754_finite false 6143360251696094 (-53)) (S754_finite false 6587009850988361 (-53)) (S754_zero false);
  mkNormalVertex (S754_finite false 7838974518600340 (-53)) (S754_finite false 8872469568288576 (-54)) (S754_finite true 5889826146871493 (-80));
  mkNormalVertex (S754_finite true 8043555035273272 (-53)) (S754_finite true 4617900985913159 (-54)) (S754_finite true 6663201749484215 (-54));
  mkNormalVertex (S754_finite true 8047365080558028 (-53)) (S754_finite false 4611631975231859 (-54)) (S754_finite true 6649150518646819 (-54));
  mkNormalVertex (S754_finite true 6043982020878685 (-56)) (S754_finite false 8969756327439034 (-53)) (S754_finite true 5117069159971799 (-57));
  mkNormalVertex (S754_finite false 5672049543492516 (-53)) (S754_finite false 6592008846574742 (-53)) (S754_finite false 4691651933410978 (-54));
  mkNormalVertex (S754_finite false 7239311221016704 (-53)) (S754_finite false 8887763792623126 (-54)) (S754_finite false 5991300713877556 (-54));
  mkNormalVertex (S754_finite true 6155583021084777 (-53)) (S754_finite true 4624818514940800 (-54)) (S754_finite true 6155583021084777 (-53));
  mkNormalVertex (S754_finite true 6156699913792365 (-53)) (S754_finite false 4612892983127523 (-54)) (S754_finite true 6156699913792365 (-53));
  mkNormalVertex (S754_finite true 4678332087153067 (-56)) (S754_finite false 8969152845088966 (-53)) (S754_finite true 4678324881393664 (-56));
  mkNormalVertex (S754_finite false 8672095413667608 (-54)) (S754_finite false 6597494230920880 (-53)) (S754_finite false 8672095413667608 (-54));
  mkNormalVertex (S754_finite false 5537662130611781 (-53)) (S754_finite false 8899058820488572 (-54)) (S754_finite false 5537662130611781 (-53));
  mkNormalVertex (S754_finite true 6663201749484215 (-54)) (S754_finite true 4617900985913159 (-54)) (S754_finite true 8043555035273272 (-53));
  mkNormalVertex (S754_finite true 6649150518646819 (-54)) (S754_finite false 4611631975231859 (-54)) (S754_finite true 8047365080558028 (-53));
  mkNormalVertex (S754_finite true 5117054748452992 (-57)) (S754_finite false 8969756327439034 (-53)) (S754_finite true 6043989226638089 (-56));
  mkNormalVertex (S754_finite false 4691651933410978 (-54)) (S754_finite false 6592008846574742 (-53)) (S754_finite false 5672049543492516 (-53));
  mkNormalVertex (S754_finite false 5991300713877556 (-54)) (S754_finite false 8887763792623126 (-54)) (S754_finite false 7239311221016704 (-53));
  mkNormalVertex (S754_finite true 6567824876863733 (-61)) (S754_finite true 4645246842850553 (-54)) (S754_finite true 8702548754347887 (-53));
  mkNormalVertex (S754_finite true 8868779498897894 (-62)) (S754_finite false 4588915818711403 (-54)) (S754_finite true 8710042744127832 (-53));
  mkNormalVertex (S754_finite true 4908936852431144 (-64)) (S754_finite false 8968774542720267 (-53)) (S754_finite true 6648768613398418 (-56));
  mkNormalVertex (S754_finite false 7062535193455698 (-68)) (S754_finite false 6586919778995814 (-53)) (S754_finite false 6143459330887896 (-53));
  mkNormalVertex (S754_finite false 5883648535933262 (-81)) (S754_finite false 8872469568288576 (-54)) (S754_finite false 7838974518600340 (-53));
  mkNormalVertex (S754_finite false 6828501870207222 (-54)) (S754_finite true 6472573384456877 (-54)) (S754_finite true 7681078315664730 (-53));
  mkNormalVertex (S754_finite false 6793409821910751 (-54)) (S754_finite false 5371389232369262 (-55)) (S754_finite true 8233399773965448 (-53));
  mkNormalVertex (S754_finite false 7926969450999607 (-58)) (S754_finite false 8935871243842698 (-53)) (S754_finite true 8830730206942106 (-56));
  mkNormalVertex (S754_finite true 4701938154959893 (-54)) (S754_finite false 6546090144774073 (-53)) (S754_finite false 5722877168887020 (-53));
  mkNormalVertex (S754_finite true 5989517288425117 (-54)) (S754_finite false 8872919928251313 (-54)) (S754_finite false 7244229151809792 (-53));
  mkNormalVertex (S754_finite false 5976709051084876 (-53)) (S754_finite true 7400152778108614 (-54)) (S754_finite true 5631877434816372 (-53));
  mkNormalVertex (S754_finite false 6419106649680734 (-53)) (S754_finite false 5312201124626508 (-56)) (S754_finite true 6283611351291666 (-53));
  mkNormalVertex (S754_finite false 7186073269101632 (-56)) (S754_finite false 8894690328850022 (-53)) (S754_finite true 8789873551122601 (-56));
  mkNormalVertex (S754_finite true 8778776681640760 (-54)) (S754_finite false 6518996489415812 (-53)) (S754_finite false 8801258650980594 (-54));
  mkNormalVertex (S754_finite true 5541607283885357 (-53)) (S754_finite false 8873928734567844 (-54)) (S754_finite false 5543787026105005 (-53));
  mkNormalVertex (S754_finite false 7926587545751206 (-53)) (S754_finite true 5997137378994628 (-54)) (S754_finite true 6101638904748133 (-54));
  mkNormalVertex (S754_finite false 8262087703591798 (-53)) (S754_finite false 6020880356230126 (-55)) (S754_finite true 6512078960388171 (-54));
  mkNormalVertex (S754_finite false 8184589761204007 (-56)) (S754_finite false 8938429288431045 (-53)) (S754_finite true 6927545033212354 (-57));
  mkNormalVertex (S754_finite true 5711915407394000 (-53)) (S754_finite false 6552809515418110 (-53)) (S754_finite false 4717772811249727 (-54));
  mkNormalVertex (S754_finite true 7242923107917855 (-53)) (S754_finite false 8874505195320148 (-54)) (S754_finite false 5993480456097203 (-54));
  mkNormalVertex (S754_finite false 8707169447565570 (-53)) (S754_finite true 4606966246017904 (-54)) (S754_finite false 6026147766354298 (-59));
  mkNormalVertex (S754_finite false 8713942861405135 (-53)) (S754_finite false 4556958275755582 (-54)) (S754_finite false 4671228649532809 (-59));
  mkNormalVertex (S754_finite false 6732809385324854 (-56)) (S754_finite false 8967783750802245 (-53)) (S754_finite false 5905863465778666 (-62));
  mkNormalVertex (S754_finite true 6144414094008898 (-53)) (S754_finite false 6586028066269594 (-53)) (S754_finite true 6337009991641442 (-64));
  mkNormalVertex (S754_finite true 7839163669784690 (-53)) (S754_finite false 8871785021145216 (-54)) (S754_finite true 8004942454693371 (-67));
  mkNormalVertex (S754_finite false 8043555035273272 (-53)) (S754_finite true 4617900985913159 (-54)) (S754_finite false 6663201749484215 (-54));
  mkNormalVertex (S754_finite false 8047365080558028 (-53)) (S754_finite false 4611631975231859 (-54)) (S754_finite false 6649150518646819 (-54));
  mkNormalVertex (S754_finite false 6043960403600474 (-56)) (S754_finite false 8969756327439034 (-53)) (S754_finite false 5117040336934184 (-57));
  mkNormalVertex (S754_finite true 5672049543492516 (-53)) (S754_finite false 6592008846574742 (-53)) (S754_finite true 4691651933410978 (-54));
  mkNormalVertex (S754_finite true 7239311221016704 (-53)) (S754_finite false 8887763792623126 (-54)) (S754_finite true 5991300713877556 (-54));
  mkNormalVertex (S754_finite false 6155583021084777 (-53)) (S754_finite true 4624818514940800 (-54)) (S754_finite false 6155583021084777 (-53));
  mkNormalVertex (S754_finite false 6156699913792365 (-53)) (S754_finite false 4612892983127523 (-54)) (S754_finite false 6156699913792365 (-53));
  mkNormalVertex (S754_finite false 4678332087153067 (-56)) (S754_finite false 8969152845088966 (-53)) (S754_finite false 4678332087153067 (-56));
  mkNormalVertex (S754_finite true 8672095413667608 (-54)) (S754_finite false 6597494230920880 (-53)) (S754_finite true 8672095413667608 (-54));
  mkNormalVertex (S754_finite true 5537662130611781 (-53)) (S754_finite false 8899058820488572 (-54)) (S754_finite true 5537662130611781 (-53));
  mkNormalVertex (S754_finite false 6663201749484215 (-54)) (S754_finite true 4617900985913159 (-54)) (S754_finite false 8043555035273272 (-53));
  mkNormalVertex (S754_finite false 6649150518646819 (-54)) (S754_finite false 4611631975231859 (-54)) (S754_finite false 8047365080558028 (-53));
  mkNormalVertex (S754_finite false 5117054748452992 (-57)) (S754_finite false 8969756327439034 (-53)) (S754_finite false 6043974815119281 (-56));
  mkNormalVertex (S754_finite true 4691651933410978 (-54)) (S754_finite false 6592008846574742 (-53)) (S754_finite true 5672049543492516 (-53));
  mkNormalVertex (S754_finite true 5991300713877556 (-54)) (S754_finite false 8887763792623126 (-54)) (S754_finite true 7239311221016704 (-53));
  mkNormalVertex (S754_finite false 4642093808447234 (-80)) (S754_finite true 4607218447597036 (-54)) (S754_finite false 8707637821926816 (-53));
  mkNormalVertex (S754_finite false 6270915832988612 (-81)) (S754_finite false 4601651998457606 (-54)) (S754_finite false 8708376412265705 (-53));
  mkNormalVertex (S754_finite false 6030741562720323 (-77)) (S754_finite false 8968954686705362 (-53)) (S754_finite false 6633045646379342 (-56));
  mkNormalVertex (S754_finite false 6278072673840731 (-79)) (S754_finite false 6587009850988361 (-53)) (S754_finite true 6143360251696094 (-53));
  mkNormalVertex (S754_finite true 5883648535933262 (-81)) (S754_finite false 8872469568288576 (-54)) (S754_finite true 7838974518600340 (-53));
  mkNormalVertex (S754_finite true 6663201749484215 (-54)) (S754_finite true 4617900985913159 (-54)) (S754_finite false 8043555035273272 (-53));
  mkNormalVertex (S754_finite true 6649150518646819 (-54)) (S754_finite false 4611613960833350 (-54)) (S754_finite false 8047365080558028 (-53));
  mkNormalVertex (S754_finite true 5117069159971799 (-57)) (S754_finite false 8969756327439034 (-53)) (S754_finite false 6043982020878685 (-56));
  mkNormalVertex (S754_finite false 4691651933410978 (-54)) (S754_finite false 6592008846574742 (-53)) (S754_finite true 5672049543492516 (-53));
  mkNormalVertex (S754_finite false 5991300713877556 (-54)) (S754_finite false 8887763792623126 (-54)) (S754_finite true 7239311221016704 (-53));
  mkNormalVertex (S754_finite true 6155583021084777 (-53)) (S754_finite true 4624818514940800 (-54)) (S754_finite false 6155583021084777 (-53));
  mkNormalVertex (S754_finite true 6156699913792365 (-53)) (S754_finite false 4612892983127523 (-54)) (S754_finite false 6156699913792365 (-53));
  mkNormalVertex (S754_finite true 4678332087153067 (-56)) (S754_finite false 8969152845088966 (-53)) (S754_finite false 4678339292912471 (-56));
  mkNormalVertex (S754_finite false 8672095413667608 (-54)) (S754_finite false 6597494230920880 (-53)) (S754_finite true 8672095413667608 (-54));
  mkNormalVertex (S754_finite false 5537662130611781 (-53)) (S754_finite false 8899058820488572 (-54)) (S754_finite true 5537662130611781 (-53));
  mkNormalVertex (S754_finite true 8043555035273272 (-53)) (S754_finite true 4617900985913159 (-54)) (S754_finite false 6663201749484215 (-54));
  mkNormalVertex (S754_finite true 8047365080558028 (-53)) (S754_finite false 4611631975231859 (-54)) (S754_finite false 6649150518646819 (-54));
  mkNormalVertex (S754_finite true 6043953197841070 (-56)) (S754_finite false 8969756327439034 (-53)) (S754_finite false 5117040336934184 (-57));
  mkNormalVertex (S754_finite false 5672049543492516 (-53)) (S754_finite false 6592008846574742 (-53)) (S754_finite true 4691651933410978 (-54));
  mkNormalVertex (S754_finite false 7239311221016704 (-53)) (S754_finite false 8887763792623126 (-54)) (S754_finite true 5991300713877556 (-54));
  mkNormalVertex (S754_finite false 8244478629048780 (-53)) (S754_finite false 7254848639731132 (-54)) (S754_finite false 5842871468037660 (-80));
  mkNormalVertex (S754_finite false 8483052315709104 (-53)) (S754_finite false 6055558073360878 (-54)) (S754_finite true 5872586864683788 (-80));
  mkNormalVertex (S754_finite false 8815255838622461 (-53)) (S754_finite false 7398225237468099 (-55)) (S754_finite false 5923772783886271 (-80));
  mkNormalVertex (S754_finite false 8987419445177581 (-53)) (S754_finite true 4773073411794135 (-56)) (S754_finite false 6088754890489080 (-79));
  mkNormalVertex (S754_finite false 7615028523529715 (-53)) (S754_finite false 7269638460907417 (-54)) (S754_finite false 6302067102564630 (-54));
  mkNormalVertex (S754_finite false 7836227322827644 (-53)) (S754_finite false 6068312267505592 (-54)) (S754_finite false 6486030140143460 (-54));
  mkNormalVertex (S754_finite false 8144246515742022 (-53)) (S754_finite false 7414402167329614 (-55)) (S754_finite false 6742429074128917 (-54));
  mkNormalVertex (S754_finite false 8303547841761371 (-53)) (S754_finite true 4782440899019066 (-56)) (S754_finite false 6877032659791766 (-54));
  mkNormalVertex (S754_finite false 5825874492364983 (-53)) (S754_finite false 7279546380087632 (-54)) (S754_finite false 5825874492364983 (-53));
  mkNormalVertex (S754_finite false 5995687219914615 (-53)) (S754_finite false 6077175351572257 (-54)) (S754_finite false 5995687219914615 (-53));
  mkNormalVertex (S754_finite false 6232288329938151 (-53)) (S754_finite false 7426255641548853 (-55)) (S754_finite false 6232288329938151 (-53));
  mkNormalVertex (S754_finite false 6354957376588469 (-53)) (S754_finite true 4790360028603834 (-56)) (S754_finite false 6354966383787724 (-53));
  mkNormalVertex (S754_finite false 6302067102564630 (-54)) (S754_finite false 7269638460907417 (-54)) (S754_finite false 7615028523529715 (-53));
  mkNormalVertex (S754_finite false 6486030140143460 (-54)) (S754_finite false 6068312267505592 (-54)) (S754_finite false 7836227322827644 (-53));
  mkNormalVertex (S754_finite false 6742429074128917 (-54)) (S754_finite false 7414402167329614 (-55)) (S754_finite false 8144246515742022 (-53));
  mkNormalVertex (S754_finite false 6877032659791766 (-54)) (S754_finite true 4782440899019066 (-56)) (S754_finite false 8303547841761371 (-53));
  mkNormalVertex (S754_finite true 6357112243927135 (-82)) (S754_finite false 7254848639731132 (-54)) (S754_finite false 8244478629048780 (-53));
  mkNormalVertex (S754_finite false 4722978199334370 (-82)) (S754_finite false 6055558073360878 (-54)) (S754_finite false 8483052315709104 (-53));
  mkNormalVertex (S754_finite true 5834276005460200 (-78)) (S754_finite false 7398225237468099 (-55)) (S754_finite false 8815255838622461 (-53));
  mkNormalVertex (S754_finite true 6499668776576092 (-78)) (S754_finite true 4773073411794135 (-56)) (S754_finite false 8987419445177581 (-53));
  mkNormalVertex (S754_finite true 6302067102564630 (-54)) (S754_finite false 7269638460907417 (-54)) (S754_finite false 7615028523529715 (-53));
  mkNormalVertex (S754_finite true 6486030140143460 (-54)) (S754_finite false 6068312267505592 (-54)) (S754_finite false 7836227322827644 (-53));
  mkNormalVertex (S754_finite true 6742429074128917 (-54)) (S754_finite false 7414402167329614 (-55)) (S754_finite false 8144246515742022 (-53));
  mkNormalVertex (S754_finite true 6877032659791766 (-54)) (S754_finite true 4782440899019066 (-56)) (S754_finite false 8303547841761371 (-53));
  mkNormalVertex (S754_finite true 5825874492364983 (-53)) (S754_finite false 7279546380087632 (-54)) (S754_finite false 5825874492364983 (-53));
  mkNormalVertex (S754_finite true 5995687219914615 (-53)) (S754_finite false 6077175351572257 (-54)) (S754_finite false 5995687219914615 (-53));
  mkNormalVertex (S754_finite true 6232288329938151 (-53)) (S754_finite false 7426255641548853 (-55)) (S754_finite false 6232288329938151 (-53));
  mkNormalVertex (S754_finite true 6354966383787724 (-53)) (S754_finite true 4790360028603834 (-56)) (S754_finite false 6354966383787724 (-53));
  mkNormalVertex (S754_finite true 7615028523529715 (-53)) (S754_finite false 7269638460907417 (-54)) (S754_finite false 6302067102564630 (-54));
  mkNormalVertex (S754_finite true 7836227322827644 (-53)) (S754_finite false 6068312267505592 (-54)) (S754_finite false 6486030140143460 (-54));
  mkNormalVertex (S754_finite true 8144246515742022 (-53)) (S754_finite false 7414402167329614 (-55)) (S754_finite false 6742429074128917 (-54));
  mkNormalVertex (S754_finite true 8303547841761371 (-53)) (S754_finite true 4782440899019066 (-56)) (S754_finite false 6877032659791766 (-54));
  mkNormalVertex (S754_finite true 8244478629048780 (-53)) (S754_finite false 7254848639731132 (-54)) (S754_finite true 5842859378779464 (-81));
  mkNormalVertex (S754_finite true 8483052315709104 (-53)) (S754_finite false 6055558073360878 (-54)) (S754_finite true 7340718469281990 (-79));
  mkNormalVertex (S754_finite true 8815255838622461 (-53)) (S754_finite false 7398225237468099 (-55)) (S754_finite true 4813066142486233 (-77));
  mkNormalVertex (S754_finite true 8987419445177581 (-53)) (S754_finite true 4773073411794135 (-56)) (S754_finite true 6849864363372960 (-78));
  mkNormalVertex (S754_finite true 7615028523529715 (-53)) (S754_finite false 7269638460907417 (-54)) (S754_finite true 6302067102564630 (-54));
  mkNormalVertex (S754_finite true 7836227322827644 (-53)) (S754_finite false 6068312267505592 (-54)) (S754_finite true 6486030140143460 (-54));
  mkNormalVertex (S754_finite true 8144246515742022 (-53)) (S754_finite false 7414402167329614 (-55)) (S754_finite true 6742429074128917 (-54));
  mkNormalVertex (S754_finite true 8303547841761371 (-53)) (S754_finite true 4782440899019066 (-56)) (S754_finite true 6877032659791766 (-54));
  mkNormalVertex (S754_finite true 5825874492364983 (-53)) (S754_finite false 7279546380087632 (-54)) (S754_finite true 5825874492364983 (-53));
  mkNormalVertex (S754_finite true 5995687219914615 (-53)) (S754_finite false 6077175351572257 (-54)) (S754_finite true 5995687219914615 (-53));
  mkNormalVertex (S754_finite true 6232288329938151 (-53)) (S754_finite false 7426255641548853 (-55)) (S754_finite true 6232288329938151 (-53));
  mkNormalVertex (S754_finite true 6354957376588469 (-53)) (S754_finite true 4790360028603834 (-56)) (S754_finite true 6354966383787724 (-53));
  mkNormalVertex (S754_finite true 6302067102564630 (-54)) (S754_finite false 7269638460907417 (-54)) (S754_finite true 7615028523529715 (-53));
  mkNormalVertex (S754_finite true 6486030140143460 (-54)) (S754_finite false 6068312267505592 (-54)) (S754_finite true 7836227322827644 (-53));
  mkNormalVertex (S754_finite true 6742429074128917 (-54)) (S754_finite false 7414402167329614 (-55)) (S754_finite true 8144246515742022 (-53));
  mkNormalVertex (S754_finite true 6877032659791766 (-54)) (S754_finite true 4782440899019066 (-56)) (S754_finite true 8303547841761371 (-53));
  mkNormalVertex (S754_finite false 6357112243927135 (-82)) (S754_finite false 7254848639731132 (-54)) (S754_finite true 8244478629048780 (-53));
  mkNormalVertex (S754_finite true 4722978199334370 (-82)) (S754_finite false 6055558073360878 (-54)) (S754_finite true 8483052315709104 (-53));
  mkNormalVertex (S754_finite false 5834276005460200 (-78)) (S754_finite false 7398225237468099 (-55)) (S754_finite true 8815255838622461 (-53));
  mkNormalVertex (S754_finite false 6499668776576092 (-78)) (S754_finite true 4773073411794135 (-56)) (S754_finite true 8987419445177581 (-53));
  mkNormalVertex (S754_finite false 6302067102564630 (-54)) (S754_finite false 7269638460907417 (-54)) (S754_finite true 7615028523529715 (-53));
  mkNormalVertex (S754_finite false 6486030140143460 (-54)) (S754_finite false 6068312267505592 (-54)) (S754_finite true 7836227322827644 (-53));
  mkNormalVertex (S754_finite false 6742429074128917 (-54)) (S754_finite false 7414402167329614 (-55)) (S754_finite true 8144246515742022 (-53));
  mkNormalVertex (S754_finite false 6877032659791766 (-54)) (S754_finite true 4782440899019066 (-56)) (S754_finite true 8303547841761371 (-53));
  mkNormalVertex (S754_finite false 5825874492364983 (-53)) (S754_finite false 7279546380087632 (-54)) (S754_finite true 5825874492364983 (-53));
  mkNormalVertex (S754_finite false 5995687219914615 (-53)) (S754_finite false 6077175351572257 (-54)) (S754_finite true 5995687219914615 (-53));
  mkNormalVertex (S754_finite false 6232288329938151 (-53)) (S754_finite false 7426255641548853 (-55)) (S754_finite true 6232288329938151 (-53));
  mkNormalVertex (S754_finite false 6354966383787724 (-53)) (S754_finite true 4790360028603834 (-56)) (S754_finite true 6354957376588469 (-53));
  mkNormalVertex (S754_finite false 7615028523529715 (-53)) (S754_finite false 7269638460907417 (-54)) (S754_finite true 6302067102564630 (-54));
  mkNormalVertex (S754_finite false 7836227322827644 (-53)) (S754_finite false 6068312267505592 (-54)) (S754_finite true 6486030140143460 (-54));
  mkNormalVertex (S754_finite false 8144246515742022 (-53)) (S754_finite false 7414402167329614 (-55)) (S754_finite true 6742429074128917 (-54));
  mkNormalVertex (S754_finite false 8303547841761371 (-53)) (S754_finite true 4782440899019066 (-56)) (S754_finite true 6877032659791766 (-54));
  mkNormalVertex (S754_finite false 8108118639531256 (-53)) (S754_finite true 7845504738060027 (-54)) (S754_finite true 4560158861022852 (-78));
  mkNormalVertex (S754_finite false 6571751655450830 (-53)) (S754_finite true 6159690303944939 (-53)) (S754_finite true 5870616315597816 (-79));
  mkNormalVertex (S754_finite false 6250554930026766 (-53)) (S754_finite true 6485381621797119 (-53)) (S754_finite true 5768280744967438 (-79));
  mkNormalVertex (S754_finite false 7151265848301611 (-53)) (S754_finite true 5476233031694447 (-53)) (S754_finite false 7941735940503403 (-78));
  mkNormalVertex (S754_finite false 7488918726764086 (-53)) (S754_finite true 7857520341865852 (-54)) (S754_finite false 6200177664595000 (-54));
  mkNormalVertex (S754_finite false 6066456784459115 (-53)) (S754_finite true 6166914077747241 (-53)) (S754_finite false 5018703338350624 (-54));
  mkNormalVertex (S754_finite false 5768201395536877 (-53)) (S754_finite true 6493506115524895 (-53)) (S754_finite false 4771545790800531 (-54));
  mkNormalVertex (S754_finite false 6601817686563155 (-53)) (S754_finite true 5485348317340245 (-53)) (S754_finite false 5461353138525615 (-54));
  mkNormalVertex (S754_finite false 5729407388346707 (-53)) (S754_finite true 7868274937776013 (-54)) (S754_finite false 5729407388346707 (-53));
  mkNormalVertex (S754_finite false 4638392364217695 (-53)) (S754_finite true 6172534570082200 (-53)) (S754_finite false 4638392364217695 (-53));
  mkNormalVertex (S754_finite false 8820768244566363 (-54)) (S754_finite true 6498207873535870 (-53)) (S754_finite false 8820768244566363 (-54));
  mkNormalVertex (S754_finite false 5049030578241337 (-53)) (S754_finite true 5490374334524391 (-53)) (S754_finite false 5049030578241337 (-53));
  mkNormalVertex (S754_finite false 6200177664595000 (-54)) (S754_finite true 7857520341865852 (-54)) (S754_finite false 7488918726764086 (-53));
  mkNormalVertex (S754_finite false 5018703338350624 (-54)) (S754_finite true 6166914077747241 (-53)) (S754_finite false 6066456784459115 (-53));
  mkNormalVertex (S754_finite false 4771545790800531 (-54)) (S754_finite true 6493506115524895 (-53)) (S754_finite false 5768201395536877 (-53));
  mkNormalVertex (S754_finite false 5461353138525615 (-54)) (S754_finite true 5485348317340245 (-53)) (S754_finite false 6601817686563155 (-53));
  mkNormalVertex (S754_finite false 7136107774312214 (-79)) (S754_finite true 7845504738060027 (-54)) (S754_finite false 8108118639531256 (-53));
  mkNormalVertex (S754_finite true 5751875621595267 (-80)) (S754_finite true 6159690303944939 (-53)) (S754_finite false 6571751655450830 (-53));
  mkNormalVertex (S754_finite false 5501924163760845 (-79)) (S754_finite true 6485381621797119 (-53)) (S754_finite false 6250554930026766 (-53));
  mkNormalVertex (S754_finite true 8129905244326420 (-78)) (S754_finite true 5476233031694447 (-53)) (S754_finite false 7151265848301611 (-53));
  mkNormalVertex (S754_finite true 6200177664595000 (-54)) (S754_finite true 7857520341865852 (-54)) (S754_finite false 7488918726764086 (-53));
  mkNormalVertex (S754_finite true 5018703338350624 (-54)) (S754_finite true 6166914077747241 (-53)) (S754_finite false 6066456784459115 (-53));
  mkNormalVertex (S754_finite true 4771545790800531 (-54)) (S754_finite true 6493506115524895 (-53)) (S754_finite false 5768201395536877 (-53));
  mkNormalVertex (S754_finite true 5461353138525615 (-54)) (S754_finite true 5485348317340245 (-53)) (S754_finite false 6601817686563155 (-53));
  mkNormalVertex (S754_finite true 5729407388346707 (-53)) (S754_finite true 7868274937776013 (-54)) (S754_finite false 5729407388346707 (-53));
  mkNormalVertex (S754_finite true 4638392364217695 (-53)) (S754_finite true 6172534570082200 (-53)) (S754_finite false 4638392364217695 (-53));
  mkNormalVertex (S754_finite true 8820768244566363 (-54)) (S754_finite true 6498207873535870 (-53)) (S754_finite false 8820768244566363 (-54));
  mkNormalVertex (S754_finite true 5049030578241337 (-53)) (S754_finite true 5490374334524391 (-53)) (S754_finite false 5049030578241337 (-53));
  mkNormalVertex (S754_finite true 7488918726764086 (-53)) (S754_finite true 7857520341865852 (-54)) (S754_finite false 6200177664595000 (-54));
  mkNormalVertex (S754_finite true 6066456784459115 (-53)) (S754_finite true 6166914077747241 (-53)) (S754_finite false 5018721352749133 (-54));
  mkNormalVertex (S754_finite true 5768201395536877 (-53)) (S754_finite true 6493506115524895 (-53)) (S754_finite false 4771545790800531 (-54));
  mkNormalVertex (S754_finite true 6601817686563155 (-53)) (S754_finite true 5485348317340245 (-53)) (S754_finite false 5461353138525615 (-54));
  mkNormalVertex (S754_finite true 8108118639531256 (-53)) (S754_finite true 7845504738060027 (-54)) (S754_finite true 4560152816393754 (-79));
  mkNormalVertex (S754_finite true 6571751655450830 (-53)) (S754_finite true 6159690303944939 (-53)) (S754_finite true 8805924473396724 (-80));
  mkNormalVertex (S754_finite true 6250554930026766 (-53)) (S754_finite true 6485381621797119 (-53)) (S754_finite false 5768280744967438 (-80));
  mkNormalVertex (S754_finite true 7151265848301611 (-53)) (S754_finite true 5476224024495193 (-53)) (S754_finite true 7941735940503403 (-78));
  mkNormalVertex (S754_finite true 7488918726764086 (-53)) (S754_finite true 7857520341865852 (-54)) (S754_finite true 6200177664595000 (-54));
  mkNormalVertex (S754_finite true 6066456784459115 (-53)) (S754_finite true 6166914077747241 (-53)) (S754_finite true 5018703338350624 (-54));
  mkNormalVertex (S754_finite true 5768201395536877 (-53)) (S754_finite true 6493506115524895 (-53)) (S754_finite true 4771545790800531 (-54));
  mkNormalVertex (S754_finite true 6601817686563155 (-53)) (S754_finite true 5485348317340245 (-53)) (S754_finite true 5461353138525615 (-54));
  mkNormalVertex (S754_finite true 5729407388346707 (-53)) (S754_finite true 7868274937776013 (-54)) (S754_finite true 5729407388346707 (-53));
  mkNormalVertex (S754_finite true 4638392364217695 (-53)) (S754_finite true 6172534570082200 (-53)) (S754_finite true 4638392364217695 (-53));
  mkNormalVertex (S754_finite true 8820768244566363 (-54)) (S754_finite true 6498207873535870 (-53)) (S754_finite true 8820768244566363 (-54));
  mkNormalVertex (S754_finite true 5049030578241337 (-53)) (S754_finite true 5490374334524391 (-53)) (S754_finite true 5049030578241337 (-53));
  mkNormalVertex (S754_finite true 6200177664595000 (-54)) (S754_finite true 7857520341865852 (-54)) (S754_finite true 7488918726764086 (-53));
  mkNormalVertex (S754_finite true 5018703338350624 (-54)) (S754_finite true 6166914077747241 (-53)) (S754_finite true 6066456784459115 (-53));
  mkNormalVertex (S754_finite true 4771545790800531 (-54)) (S754_finite true 6493506115524895 (-53)) (S754_finite true 5768201395536877 (-53));
  mkNormalVertex (S754_finite true 5461353138525615 (-54)) (S754_finite true 5485348317340245 (-53)) (S754_finite true 6601817686563155 (-53));
  mkNormalVertex (S754_finite true 7136107774312214 (-79)) (S754_finite true 7845504738060027 (-54)) (S754_finite true 8108118639531256 (-53));
  mkNormalVertex (S754_finite false 5751875621595267 (-80)) (S754_finite true 6159690303944939 (-53)) (S754_finite true 6571751655450830 (-53));
  mkNormalVertex (S754_finite true 5501924163760845 (-79)) (S754_finite true 6485381621797119 (-53)) (S754_finite true 6250554930026766 (-53));
  mkNormalVertex (S754_finite false 8129905244326420 (-78)) (S754_finite true 5476233031694447 (-53)) (S754_finite true 7151265848301611 (-53));
  mkNormalVertex (S754_finite false 6200177664595000 (-54)) (S754_finite true 7857520341865852 (-54)) (S754_finite true 7488918726764086 (-53));
  mkNormalVertex (S754_finite false 5018703338350624 (-54)) (S754_finite true 6166914077747241 (-53)) (S754_finite true 6066456784459115 (-53));
  mkNormalVertex (S754_finite false 4771545790800531 (-54)) (S754_finite true 6493506115524895 (-53)) (S754_finite true 5768201395536877 (-53));
  mkNormalVertex (S754_finite false 5461371152924125 (-54)) (S754_finite true 5485348317340245 (-53)) (S754_finite true 6601817686563155 (-53));
  mkNormalVertex (S754_finite false 5729407388346707 (-53)) (S754_finite true 7868274937776013 (-54)) (S754_finite true 5729407388346707 (-53));
  mkNormalVertex (S754_finite false 4638392364217695 (-53)) (S754_finite true 6172534570082200 (-53)) (S754_finite true 4638392364217695 (-53));
  mkNormalVertex (S754_finite false 8820768244566363 (-54)) (S754_finite true 6498207873535870 (-53)) (S754_finite true 8820768244566363 (-54));
  mkNormalVertex (S754_finite false 5049030578241337 (-53)) (S754_finite true 5490374334524391 (-53)) (S754_finite true 5049030578241337 (-53));
  mkNormalVertex (S754_finite false 7488918726764086 (-53)) (S754_finite true 7857520341865852 (-54)) (S754_finite true 6200177664595000 (-54));
  mkNormalVertex (S754_finite false 6066456784459115 (-53)) (S754_finite true 6166914077747241 (-53)) (S754_finite true 5018721352749133 (-54));
  mkNormalVertex (S754_finite false 5768201395536877 (-53)) (S754_finite true 6493506115524895 (-53)) (S754_finite true 4771545790800531 (-54));
  mkNormalVertex (S754_finite false 6601817686563155 (-53)) (S754_finite true 5485348317340245 (-53)) (S754_finite true 5461353138525615 (-54));
  mkNormalVertex (S754_finite false 5619231327062715 (-53)) (S754_finite true 7039450476753256 (-53)) (S754_finite false 4597665784576396 (-77));
  mkNormalVertex (S754_finite false 6387581452289141 (-55)) (S754_finite true 8864516211346640 (-53)) (S754_finite true 7938314680433893 (-81));
  mkNormalVertex (S754_finite false 7091504882686255 (-57)) (S754_finite true 8996291536443501 (-53)) (S754_finite false 7172605244806379 (-82));
  mkNormalVertex (S754_finite false 6024682789190160 (-88)) (S754_finite true 4503599627370496 (-52)) (S754_finite true 7527913378894397 (-83));
  mkNormalVertex (S754_finite false 5190209419360147 (-53)) (S754_finite true 7041837384555762 (-53)) (S754_finite false 8582671939466540 (-55));
  mkNormalVertex (S754_finite false 5895356027416055 (-55)) (S754_finite true 8864957564110122 (-53)) (S754_finite false 4865854769877371 (-56));
  mkNormalVertex (S754_finite false 6545956838225103 (-57)) (S754_finite true 8996318558041265 (-53)) (S754_finite false 5400197858465626 (-58));
  mkNormalVertex (S754_finite false 7933829333952017 (-54)) (S754_finite true 7046764322548106 (-53)) (S754_finite false 7933829333952017 (-54));
  mkNormalVertex (S754_finite false 9000209668119313 (-56)) (S754_finite true 8865570053659445 (-53)) (S754_finite false 9000209668119313 (-56));
  mkNormalVertex (S754_finite false 4995335060604124 (-57)) (S754_finite true 8996372601236793 (-53)) (S754_finite false 4995335060604124 (-57));
  mkNormalVertex (S754_finite false 8582671939466540 (-55)) (S754_finite true 7041837384555762 (-53)) (S754_finite false 5190209419360147 (-53));
  mkNormalVertex (S754_finite false 4865854769877371 (-56)) (S754_finite true 8864957564110122 (-53)) (S754_finite false 5895356027416055 (-55));
  mkNormalVertex (S754_finite false 5400197858465626 (-58)) (S754_finite true 8996318558041265 (-53)) (S754_finite false 6545956838225103 (-57));
  mkNormalVertex (S754_finite true 4812038555539560 (-77)) (S754_finite true 7039450476753256 (-53)) (S754_finite false 5619231327062715 (-53));
  mkNormalVertex (S754_finite false 8074608977337247 (-81)) (S754_finite true 8864516211346640 (-53)) (S754_finite false 6387581452289141 (-55));
  mkNormalVertex (S754_finite true 8725446281584978 (-82)) (S754_finite true 8996291536443501 (-53)) (S754_finite false 7091504882686255 (-57));
  mkNormalVertex (S754_finite true 8582635910669521 (-55)) (S754_finite true 7041837384555762 (-53)) (S754_finite false 5190209419360147 (-53));
  mkNormalVertex (S754_finite true 4865854769877371 (-56)) (S754_finite true 8864957564110122 (-53)) (S754_finite false 5895356027416055 (-55));
  mkNormalVertex (S754_finite true 5400197858465626 (-58)) (S754_finite true 8996318558041265 (-53)) (S754_finite false 6545956838225103 (-57));
  mkNormalVertex (S754_finite true 7933829333952017 (-54)) (S754_finite true 7046764322548106 (-53)) (S754_finite false 7933829333952017 (-54));
  mkNormalVertex (S754_finite true 9000209668119313 (-56)) (S754_finite true 8865570053659445 (-53)) (S754_finite false 9000209668119313 (-56));
  mkNormalVertex (S754_finite true 4995335060604124 (-57)) (S754_finite true 8996372601236793 (-53)) (S754_finite false 4995335060604124 (-57));
  mkNormalVertex (S754_finite true 5190209419360147 (-53)) (S754_finite true 7041837384555762 (-53)) (S754_finite false 8582671939466540 (-55));
  mkNormalVertex (S754_finite true 5895356027416055 (-55)) (S754_finite true 8864957564110122 (-53)) (S754_finite false 4865854769877371 (-56));
  mkNormalVertex (S754_finite true 6545956838225103 (-57)) (S754_finite true 8996318558041265 (-53)) (S754_finite false 5400197858465626 (-58));
  mkNormalVertex (S754_finite true 5619231327062715 (-53)) (S754_finite true 7039450476753256 (-53)) (S754_finite true 4797561668849675 (-77));
  mkNormalVertex (S754_finite true 6387581452289141 (-55)) (S754_finite true 8864516211346640 (-53)) (S754_finite false 7577474501795319 (-81));
  mkNormalVertex (S754_finite true 7091504882686255 (-57)) (S754_finite true 8996291536443501 (-53)) (S754_finite true 6455325377512628 (-82));
  mkNormalVertex (S754_finite true 5190209419360147 (-53)) (S754_finite true 7041837384555762 (-53)) (S754_finite true 8582671939466540 (-55));
  mkNormalVertex (S754_finite true 5895356027416055 (-55)) (S754_finite true 8864957564110122 (-53)) (S754_finite true 4865854769877371 (-56));
  mkNormalVertex (S754_finite true 6545956838225103 (-57)) (S754_finite true 8996318558041265 (-53)) (S754_finite true 5400197858465626 (-58));
  mkNormalVertex (S754_finite true 7933829333952017 (-54)) (S754_finite true 7046764322548106 (-53)) (S754_finite true 7933829333952017 (-54));
  mkNormalVertex (S754_finite true 9000209668119313 (-56)) (S754_finite true 8865570053659445 (-53)) (S754_finite true 9000209668119313 (-56));
  mkNormalVertex (S754_finite true 4995335060604124 (-57)) (S754_finite true 8996372601236793 (-53)) (S754_finite true 4995335060604124 (-57));
  mkNormalVertex (S754_finite true 8582671939466540 (-55)) (S754_finite true 7041837384555762 (-53)) (S754_finite true 5190209419360147 (-53));
  mkNormalVertex (S754_finite true 4865854769877371 (-56)) (S754_finite true 8864957564110122 (-53)) (S754_finite true 5895356027416055 (-55));
  mkNormalVertex (S754_finite true 5400197858465626 (-58)) (S754_finite true 8996318558041265 (-53)) (S754_finite true 6545956838225103 (-57));
  mkNormalVertex (S754_finite false 4812038555539560 (-77)) (S754_finite true 7039450476753256 (-53)) (S754_finite true 5619231327062715 (-53));
  mkNormalVertex (S754_finite true 7934615367425873 (-81)) (S754_finite true 8864516211346640 (-53)) (S754_finite true 6387581452289141 (-55));
  mkNormalVertex (S754_finite false 7067090199270415 (-82)) (S754_finite true 8996291536443501 (-53)) (S754_finite true 7091504882686255 (-57));
  mkNormalVertex (S754_finite false 8582671939466540 (-55)) (S754_finite true 7041837384555762 (-53)) (S754_finite true 5190209419360147 (-53));
  mkNormalVertex (S754_finite false 4865854769877371 (-56)) (S754_finite true 8864957564110122 (-53)) (S754_finite true 5895356027416055 (-55));
  mkNormalVertex (S754_finite false 5400197858465626 (-58)) (S754_finite true 8996318558041265 (-53)) (S754_finite true 6545956838225103 (-57));
  mkNormalVertex (S754_finite false 7933829333952017 (-54)) (S754_finite true 7046764322548106 (-53)) (S754_finite true 7933829333952017 (-54));
  mkNormalVertex (S754_finite false 9000209668119313 (-56)) (S754_finite true 8865570053659445 (-53)) (S754_finite true 9000209668119313 (-56));
  mkNormalVertex (S754_finite false 4995335060604124 (-57)) (S754_finite true 8996372601236793 (-53)) (S754_finite true 4995335060604124 (-57));
  mkNormalVertex (S754_finite false 5190209419360147 (-53)) (S754_finite true 7041837384555762 (-53)) (S754_finite true 8582671939466540 (-55));
  mkNormalVertex (S754_finite false 5895356027416055 (-55)) (S754_finite true 8864957564110122 (-53)) (S754_finite true 4865854769877371 (-56));
  mkNormalVertex (S754_finite false 6545956838225103 (-57)) (S754_finite true 8996318558041265 (-53)) (S754_finite true 5400197858465626 (-58));
  mkNormalVertex (S754_finite false 8976865889954786 (-60)) (S754_finite true 9006929038763350 (-53)) (S754_finite true 7961946783606369 (-65));
  mkNormalVertex (S754_finite false 5640452288506885 (-57)) (S754_finite true 9000290732912606 (-53)) (S754_finite true 4558960612178708 (-62));
  mkNormalVertex (S754_finite false 6467565381671241 (-55)) (S754_finite true 8860796238054432 (-53)) (S754_finite true 5036606768165287 (-60));
  mkNormalVertex (S754_finite false 5515108103677909 (-53)) (S754_finite true 7120695414031020 (-53)) (S754_finite true 6029664176943349 (-59));
  mkNormalVertex (S754_finite false 8882467559461339 (-53)) (S754_finite true 5970223867621462 (-55)) (S754_finite true 7689398445760320 (-60));
  mkNormalVertex (S754_finite false 8115333766422273 (-60)) (S754_finite true 7318304358480782 (-53)) (S754_finite false 5250530632769148 (-53));
  mkNormalVertex (S754_finite false 5206492634172868 (-57)) (S754_finite true 7541340626426679 (-53)) (S754_finite false 4914454014176252 (-53));
  mkNormalVertex (S754_finite false 5831080653534223 (-55)) (S754_finite true 7299623427226449 (-53)) (S754_finite false 5071485525983406 (-53));
  mkNormalVertex (S754_finite false 8689515337026277 (-54)) (S754_finite true 5360616622060592 (-53)) (S754_finite false 5789341292187754 (-53));
  mkNormalVertex (S754_finite false 6653798233462266 (-53)) (S754_finite true 8257295873588276 (-56)) (S754_finite false 5982572737799712 (-53));
  mkNormalVertex (S754_finite true 8802186752791802 (-62)) (S754_finite false 5841024601511457 (-55)) (S754_finite false 8888025001401514 (-53));
  mkNormalVertex (S754_finite false 6367816054244537 (-61)) (S754_finite false 4930843513940178 (-58)) (S754_finite false 9005848174852781 (-53));
  mkNormalVertex (S754_finite false 6071630519711038 (-59)) (S754_finite false 5288948139030469 (-56)) (S754_finite false 8982402435192690 (-53));
  mkNormalVertex (S754_finite true 4758726744821184 (-56)) (S754_finite false 4686229599459624 (-55)) (S754_finite false 8910849244313028 (-53));
  mkNormalVertex (S754_finite true 6804196843738229 (-56)) (S754_finite false 4783067800087196 (-58)) (S754_finite false 8965703087774400 (-53));
  mkNormalVertex (S754_finite true 5305168303448406 (-59)) (S754_finite false 7849855215300067 (-53)) (S754_finite false 8832333488409450 (-54));
  mkNormalVertex (S754_finite true 7004920477690281 (-57)) (S754_finite false 7571532758328571 (-53)) (S754_finite false 4858996688364811 (-53));
  mkNormalVertex (S754_finite true 8045158316740616 (-55)) (S754_finite false 7231709144845702 (-53)) (S754_finite false 4978630308866281 (-53));
  mkNormalVertex (S754_finite true 5371578383553612 (-53)) (S754_finite false 5043770373876568 (-53)) (S754_finite false 5180355543375460 (-53));
  mkNormalVertex (S754_finite true 7235816427705864 (-53)) (S754_finite false 4916929192531454 (-56)) (S754_finite false 5328677093503280 (-53));
  mkNormalVertex (S754_finite true 6087944359001225 (-59)) (S754_finite false 9006694851582727 (-53)) (S754_finite false 7626917017739656 (-66));
  mkNormalVertex (S754_finite true 8473771297597019 (-57)) (S754_finite false 8991616800030290 (-53)) (S754_finite false 6546371313506009 (-63));
  mkNormalVertex (S754_finite true 5056821805596688 (-54)) (S754_finite false 8644992751110092 (-53)) (S754_finite false 7537247394797354 (-61));
  mkNormalVertex (S754_finite true 6752904446862181 (-53)) (S754_finite false 5960406020433795 (-53)) (S754_finite false 4921130150263866 (-60));
  mkNormalVertex (S754_finite true 8983339183915183 (-53)) (S754_finite false 5239624715911507 (-56)) (S754_finite false 4748261099863115 (-61));
  mkNormalVertex (S754_finite true 5068225640429130 (-59)) (S754_finite false 7849711100111991 (-53)) (S754_finite true 8833000021154301 (-54));
  mkNormalVertex (S754_finite true 6700448319842420 (-57)) (S754_finite false 7576657854704518 (-53)) (S754_finite true 4852682641687238 (-53));
  mkNormalVertex (S754_finite true 7850999129605419 (-55)) (S754_finite false 7267071409119816 (-53)) (S754_finite true 4946402549932818 (-53));
  mkNormalVertex (S754_finite true 5379919050063502 (-53)) (S754_finite false 5044265769835579 (-53)) (S754_finite true 5171222243331153 (-53));
  mkNormalVertex (S754_finite true 7241788200811758 (-53)) (S754_finite false 4533337796429949 (-56)) (S754_finite true 5325875854535056 (-53));
  mkNormalVertex (S754_finite true 8326629690571570 (-62)) (S754_finite false 5825532218793303 (-55)) (S754_finite true 8888664512548601 (-53));
  mkNormalVertex (S754_finite false 4682867392121815 (-61)) (S754_finite false 8390386249776329 (-59)) (S754_finite true 9006226477221480 (-53));
  mkNormalVertex (S754_finite false 5312080067868524 (-59)) (S754_finite false 8656970524679047 (-57)) (S754_finite true 8990553950518231 (-53));
  mkNormalVertex (S754_finite true 8550829688661179 (-57)) (S754_finite false 8204837945128664 (-56)) (S754_finite true 8932646666509501 (-53));
  mkNormalVertex (S754_finite true 6261747275820707 (-56)) (S754_finite false 7084875584034766 (-59)) (S754_finite true 8972440472816947 (-53));
  mkNormalVertex (S754_finite false 7399208103050776 (-60)) (S754_finite true 7317259523367232 (-53)) (S754_finite true 5252043842243944 (-53));
  mkNormalVertex (S754_finite false 4868686633323062 (-57)) (S754_finite true 7543637462236638 (-53)) (S754_finite true 4912283279155859 (-53));
  mkNormalVertex (S754_finite false 5660556357243467 (-55)) (S754_finite true 7313368413289184 (-53)) (S754_finite true 5063757349022838 (-53));
  mkNormalVertex (S754_finite false 8726300738782639 (-54)) (S754_finite true 5308527988770425 (-53)) (S754_finite true 5823406519769184 (-53));
  mkNormalVertex (S754_finite false 6655149313350477 (-53)) (S754_finite true 7300875427922858 (-56)) (S754_finite true 6000479049918137 (-53));
  mkNormalVertex (S754_finite false 8525422181003406 (-53)) (S754_finite false 5812345679084362 (-54)) (S754_finite true 7740945566231292 (-61));
  mkNormalVertex (S754_finite false 7438415360542753 (-53)) (S754_finite false 5078889443770803 (-53)) (S754_finite true 8591720932125823 (-60));
  mkNormalVertex (S754_finite false 5854778594773447 (-53)) (S754_finite false 6844507663282897 (-53)) (S754_finite true 7997597422371822 (-60));
  mkNormalVertex (S754_finite false 4795694092002492 (-53)) (S754_finite false 7624215866769551 (-53)) (S754_finite true 6047580577124939 (-60));
  mkNormalVertex (S754_finite false 6535695836834102 (-53)) (S754_finite false 4672052267832662 (-54)) (S754_finite false 5740846531400228 (-53));
  mkNormalVertex (S754_finite false 5818155322603670 (-53)) (S754_finite false 8322435938598563 (-54)) (S754_finite false 5473846123891941 (-53));
  mkNormalVertex (S754_finite false 4788353224609878 (-53)) (S754_finite false 5734523477523400 (-53)) (S754_finite false 5031556611687139 (-53));
  mkNormalVertex (S754_finite false 7655470848183502 (-54)) (S754_finite false 6140360854344265 (-53)) (S754_finite false 5364147444168450 (-53));
  mkNormalVertex (S754_finite true 7142579305340338 (-57)) (S754_finite true 5693991080877066 (-58)) (S754_finite false 8994373003002241 (-53));
  mkNormalVertex (S754_finite true 5449888775314181 (-57)) (S754_finite true 5134002694570712 (-57)) (S754_finite false 8995039535747092 (-53));
  mkNormalVertex (S754_finite true 5463968829189192 (-57)) (S754_finite true 5261962570063265 (-57)) (S754_finite false 8994715276573921 (-53));
  mkNormalVertex (S754_finite true 6083606491840142 (-55)) (S754_finite true 5367317978306119 (-54)) (S754_finite false 8462533915806804 (-53));
  mkNormalVertex (S754_finite true 6686422309162937 (-53)) (S754_finite true 5389295544487687 (-54)) (S754_finite false 5400023118800084 (-53));
  mkNormalVertex (S754_finite true 5580878672636028 (-53)) (S754_finite true 4768465328655410 (-53)) (S754_finite false 5219698989720169 (-53));
  mkNormalVertex (S754_finite true 8713708674224512 (-54)) (S754_finite true 6176785968130437 (-53)) (S754_finite false 4898448221100577 (-53));
  mkNormalVertex (S754_finite true 8021685555482761 (-54)) (S754_finite true 7154913763999781 (-53)) (S754_finite false 7443117118553728 (-54));
  mkNormalVertex (S754_finite true 8345287203107841 (-53)) (S754_finite true 6778043539982163 (-54)) (S754_finite false 4602162886799335 (-61));
  mkNormalVertex (S754_finite true 6790707662134329 (-53)) (S754_finite true 5917297564800604 (-53)) (S754_finite false 4977427307333818 (-60));
  mkNormalVertex (S754_finite true 5100092390816463 (-53)) (S754_finite true 7424129942524734 (-53)) (S754_finite false 7980637947039055 (-61));
  mkNormalVertex (S754_finite true 8679409259462458 (-54)) (S754_finite true 7892801541346672 (-53)) (S754_finite false 8533786626519328 (-62));
  mkNormalVertex (S754_finite true 6707436105024248 (-53)) (S754_finite true 5303871266755724 (-54)) (S754_finite true 5395105188006995 (-53));
  mkNormalVertex (S754_finite true 5602018569286905 (-53)) (S754_finite true 4756828027218284 (-53)) (S754_finite true 5207647357117326 (-53));
  mkNormalVertex (S754_finite true 8668006145205956 (-54)) (S754_finite true 6200015535008414 (-53)) (S754_finite true 4889359957052543 (-53));
  mkNormalVertex (S754_finite true 7891297339071131 (-54)) (S754_finite true 7179053058002487 (-53)) (S754_finite true 7489378093926078 (-54));
  mkNormalVertex (S754_finite true 6389606270681607 (-57)) (S754_finite true 4915999649568365 (-58)) (S754_finite true 8997030126782389 (-53));
  mkNormalVertex (S754_finite true 7544747149184822 (-58)) (S754_finite true 8118440889877189 (-58)) (S754_finite true 9000533927292484 (-53));
  mkNormalVertex (S754_finite true 7290470311343782 (-58)) (S754_finite true 8166229486243143 (-58)) (S754_finite true 9000696056879069 (-53));
  mkNormalVertex (S754_finite true 5673887012140484 (-55)) (S754_finite true 5213222813456010 (-54)) (S754_finite true 8504300298751038 (-53));
  mkNormalVertex (S754_finite false 6559438814069599 (-53)) (S754_finite false 4547014327778348 (-54)) (S754_finite true 5738864947564185 (-53));
  mkNormalVertex (S754_finite false 5828153313776433 (-53)) (S754_finite false 8281669354771605 (-54)) (S754_finite true 5478664975493227 (-53));
  mkNormalVertex (S754_finite false 4710711167034010 (-53)) (S754_finite false 5770525252944600 (-53)) (S754_finite true 5063586212236998 (-53));
  mkNormalVertex (S754_finite false 7385507072120405 (-54)) (S754_finite false 6150629061494670 (-53)) (S754_finite true 5446374166164981 (-53));
  mkNormalVertex (S754_finite true 8314977977615637 (-55)) (S754_finite false 8763842745276400 (-53)) (S754_finite true 7520945084722213 (-60));
  mkNormalVertex (S754_finite true 4944375930100501 (-53)) (S754_finite false 7528784590665570 (-53)) (S754_finite true 6968764859305810 (-62));
  mkNormalVertex (S754_finite true 7887343178598299 (-53)) (S754_finite false 8697477701167468 (-54)) (S754_finite false 5702799401172262 (-59));
  mkNormalVertex (S754_finite true 7904303734794976 (-53)) (S754_finite false 8630644282697290 (-54)) (S754_finite false 5502980810601326 (-58));
  mkNormalVertex (S754_finite true 6270722049158131 (-53)) (S754_finite false 6462116026122123 (-53)) (S754_finite false 7060779524588483 (-58));
  mkNormalVertex (S754_finite true 5508010430665173 (-55)) (S754_finite false 6189846407049812 (-53)) (S754_finite false 6396822838724505 (-53));
  mkNormalVertex (S754_finite true 5705538310321643 (-54)) (S754_finite false 5744341324711068 (-53)) (S754_finite false 6324071690343962 (-53));
  mkNormalVertex (S754_finite true 5413930234449404 (-53)) (S754_finite false 8492924206092300 (-54)) (S754_finite false 5812615895062004 (-53));
  mkNormalVertex (S754_finite true 5727578926897995 (-53)) (S754_finite false 8036043031094818 (-54)) (S754_finite false 5672734090635877 (-53));
  mkNormalVertex (S754_finite true 7849702092912737 (-54)) (S754_finite false 5413398809693374 (-53)) (S754_finite false 6034922579868267 (-53));
  mkNormalVertex (S754_finite false 8006463388742249 (-56)) (S754_finite true 6129896290250107 (-56)) (S754_finite false 8918568414074341 (-53));
  mkNormalVertex (S754_finite false 8045590662304844 (-55)) (S754_finite false 7540521691870438 (-60)) (S754_finite false 8779551300776668 (-53));
  mkNormalVertex (S754_finite false 6848966226913993 (-55)) (S754_finite false 5583166501246732 (-55)) (S754_finite false 8732101375102693 (-53));
  mkNormalVertex (S754_finite false 6076784078836631 (-60)) (S754_finite false 6826808516747331 (-55)) (S754_finite false 8843898732252538 (-53));
  mkNormalVertex (S754_finite true 6774451468919372 (-59)) (S754_finite false 8887871879014183 (-55)) (S754_finite false 8728192250626135 (-53));
  mkNormalVertex (S754_finite false 6195259733801911 (-54)) (S754_finite true 6510367592529770 (-53)) (S754_finite false 5399023319682807 (-53));
  mkNormalVertex (S754_finite false 5156522494147416 (-53)) (S754_finite true 5112990700149253 (-53)) (S754_finite false 5328902273484649 (-53));
  mkNormalVertex (S754_finite false 7092592952356228 (-53)) (S754_finite true 4619954627343240 (-54)) (S754_finite false 5048643268673383 (-53));
  mkNormalVertex (S754_finite false 5828531616145132 (-53)) (S754_finite true 5519143328944033 (-54)) (S754_finite false 6288295094904131 (-53));
  mkNormalVertex (S754_finite false 7701659765961814 (-54)) (S754_finite true 8995363794920262 (-54)) (S754_finite false 6787609185590698 (-53));
  mkNormalVertex (S754_finite false 7402584721907394 (-54)) (S754_finite true 8211575330171211 (-53)) (S754_finite false 5923526223229243 (-62));
  mkNormalVertex (S754_finite false 6048514443543671 (-53)) (S754_finite true 6674208546973509 (-53)) (S754_finite true 8292936712520940 (-63));
  mkNormalVertex (S754_finite false 8304871900051818 (-53)) (S754_finite true 6972653087080097 (-54)) (S754_finite true 8361782267247033 (-60));
  mkNormalVertex (S754_finite false 7628287120832694 (-53)) (S754_finite true 4787830807053103 (-53)) (S754_finite true 7986402554562090 (-59));
  mkNormalVertex (S754_finite false 4827183260597066 (-53)) (S754_finite true 7603877610852345 (-53)) (S754_finite true 6055431972571312 (-59));
  mkNormalVertex (S754_finite false 6146296598653139 (-54)) (S754_finite true 6510601779710393 (-53)) (S754_finite true 5412705255350759 (-53));
  mkNormalVertex (S754_finite false 5212141949545441 (-53)) (S754_finite true 5054290782606106 (-53)) (S754_finite true 5330802792527399 (-53));
  mkNormalVertex (S754_finite false 7069471471869308 (-53)) (S754_finite true 4521974313850168 (-54)) (S754_finite true 5102956680179471 (-53));
  mkNormalVertex (S754_finite false 5788755824236195 (-53)) (S754_finite true 5444978050280496 (-54)) (S754_finite true 6340978203345111 (-53));
  mkNormalVertex (S754_finite false 7540629057685554 (-54)) (S754_finite true 4503977929739195 (-53)) (S754_finite true 6828510877406477 (-53));
  mkNormalVertex (S754_finite false 8344701735156283 (-56)) (S754_finite true 5702594757605194 (-56)) (S754_finite true 8918154082908623 (-53));
  mkNormalVertex (S754_finite false 8387900262782020 (-55)) (S754_finite false 7243344644842977 (-59)) (S754_finite true 8758969850479585 (-53));
  mkNormalVertex (S754_finite false 7445783249533132 (-55)) (S754_finite false 5534059250909884 (-55)) (S754_finite true 8703476495871126 (-53));
  mkNormalVertex (S754_finite false 7061528923566477 (-58)) (S754_finite false 5816597077132600 (-55)) (S754_finite true 8886304626343858 (-53));
  mkNormalVertex (S754_finite false 7798199648150068 (-61)) (S754_finite false 7606219482658578 (-55)) (S754_finite true 8804131947542856 (-53));
  mkNormalVertex (S754_finite true 4860717063422467 (-55)) (S754_finite false 6192368422841139 (-53)) (S754_finite true 6427096035419690 (-53));
  mkNormalVertex (S754_finite true 5756320899719873 (-54)) (S754_finite false 5702214653796644 (-53)) (S754_finite true 6350633920946193 (-53));
  mkNormalVertex (S754_finite true 5439465644336595 (-53)) (S754_finite false 8312600077012386 (-54)) (S754_finite true 5853805817253935 (-53));
  mkNormalVertex (S754_finite true 5690892604333435 (-53)) (S754_finite false 7875336581991729 (-54)) (S754_finite true 5765256041380576 (-53));
  mkNormalVertex (S754_finite true 7643617373964263 (-54)) (S754_finite false 5518765026575334 (-53)) (S754_finite true 6005550103098556 (-53));
  mkNormalVertex (S754_finite true 7670530885337429 (-54)) (S754_finite false 8149290547324677 (-53)) (S754_finite false 6228600782563260 (-59));
  mkNormalVertex (S754_finite false 6354672749092019 (-58)) (S754_finite false 9005001498122835 (-53)) (S754_finite false 7483521252682675 (-62));
  mkNormalVertex (S754_finite false 9003587367839841 (-53)) (S754_finite false 7456663946232859 (-58)) (S754_finite false 6661349869317440 (-59));
  mkNormalVertex (S754_finite false 6391373483175387 (-53)) (S754_finite true 6346049256525530 (-53)) (S754_finite false 5575430397950820 (-59));
  mkNormalVertex (S754_finite true 4681185567876969 (-54)) (S754_finite false 7133125349002562 (-53)) (S754_finite false 4976918941007880 (-53));
  mkNormalVertex (S754_finite false 5498951349942725 (-59)) (S754_finite false 9004677238949665 (-53)) (S754_finite true 6246471065884667 (-58));
  mkNormalVertex (S754_finite false 7388713635055093 (-54)) (S754_finite false 5997209436588666 (-54)) (S754_finite true 7647859764813246 (-53));
  mkNormalVertex (S754_finite false 4877605562025106 (-53)) (S754_finite true 4941529655136003 (-53)) (S754_finite true 5737585925270012 (-53));
  mkNormalVertex (S754_finite false 6674032005868116 (-57)) (S754_finite false 8200586547080427 (-54)) (S754_finite false 8008949375736557 (-53));
  mkNormalVertex (S754_finite true 6161385458844681 (-59)) (S754_finite false 8906264579892364 (-53)) (S754_finite false 5364723904920754 (-55));
  mkNormalVertex (S754_finite true 6395197939978950 (-57)) (S754_finite false 6151439709427596 (-53)) (S754_finite true 6567311106218243 (-53));
  mkNormalVertex (S754_finite false 8850473987708499 (-56)) (S754_finite false 5321966369770528 (-59)) (S754_finite true 8938609432416139 (-53));
  mkNormalVertex (S754_finite false 8680039763410290 (-54)) (S754_finite true 6501000105304839 (-55)) (S754_finite false 7723493216955306 (-53));
  mkNormalVertex (S754_finite false 8201451238208882 (-54)) (S754_finite false 6636072065328935 (-53)) (S754_finite false 9005848174852781 (-54));
  mkNormalVertex (S754_finite true 7945862952156351 (-55)) (S754_finite false 8171268113506245 (-53)) (S754_finite true 6454126640383167 (-54));
  mkNormalVertex (S754_finite true 8499913792713979 (-55)) (S754_finite false 5919972702979262 (-53)) (S754_finite true 6447326204945838 (-53));
  mkNormalVertex (S754_finite false 6558069719782878 (-53)) (S754_finite true 6172651663672511 (-53)) (S754_finite true 8984313762874546 (-59));
  mkNormalVertex (S754_finite false 8005049258459254 (-53)) (S754_finite false 8252576101178792 (-54)) (S754_finite true 4807423266872015 (-58));
  mkNormalVertex (S754_finite true 4685491009120736 (-54)) (S754_finite false 8697189470791317 (-53)) (S754_finite false 7380496187031007 (-63));
  mkNormalVertex (S754_finite true 6694366658905619 (-54)) (S754_finite false 8362085629717933 (-53)) (S754_finite true 5092973100525516 (-60));
  mkNormalVertex (S754_finite false 8649901674703926 (-54)) (S754_finite true 6426096236302413 (-55)) (S754_finite true 7735860101532065 (-53));
  mkNormalVertex (S754_finite false 8792881955673685 (-54)) (S754_finite false 6456369432997598 (-53)) (S754_finite true 8970215694601025 (-54));
  mkNormalVertex (S754_finite true 7998537053398077 (-55)) (S754_finite false 8155109198043239 (-53)) (S754_finite false 6519284719791964 (-54));
  mkNormalVertex (S754_finite true 8481358962249213 (-55)) (S754_finite false 5973394401759131 (-53)) (S754_finite false 6399407904910616 (-53));
  mkNormalVertex (S754_finite false 8462487078370680 (-57)) (S754_finite false 7884974285194302 (-54)) (S754_finite true 8081259171353618 (-53));
  mkNormalVertex (S754_finite false 6115649062756928 (-62)) (S754_finite false 8885232769632544 (-53)) (S754_finite true 5908830797501148 (-55));
  mkNormalVertex (S754_finite true 6368464572590879 (-57)) (S754_finite false 6140000566374075 (-53)) (S754_finite false 6578110738124677 (-53));
  mkNormalVertex (S754_finite false 5000833055029218 (-55)) (S754_finite true 4927240634238282 (-57)) (S754_finite false 8914695318394802 (-53));
  mkNormalVertex (S754_finite true 4663747630119791 (-54)) (S754_finite false 7180593289075047 (-53)) (S754_finite true 4912346329550642 (-53));
  mkNormalVertex (S754_finite false 7073346368988697 (-59)) (S754_finite false 9004848375735505 (-53)) (S754_finite false 5558955149649989 (-58));
  mkNormalVertex (S754_finite false 7181079677834803 (-54)) (S754_finite false 6393129887030061 (-54)) (S754_finite false 7617055143362032 (-53));
  mkNormalVertex (S754_finite false 4841946060175587 (-53)) (S754_finite true 5236785646706413 (-53)) (S754_finite false 5501029851242749 (-53));
  mkNormalVertex (S754_finite true 7535892289303854 (-83)) (S754_finite false 4503599627370496 (-52)) (S754_finite false 7869430087232252 (-80));
  mkNormalVertex (S754_finite false 7426796073504138 (-53)) (S754_finite false 5096309367129472 (-53)) (S754_finite false 5103490972827744 (-68));
  mkNormalVertex (S754_finite false 8265915763275063 (-53)) (S754_finite true 7156616124658927 (-54)) (S754_finite false 4951135624174162 (-67));
  mkNormalVertex (S754_finite false 8424154239782353 (-53)) (S754_finite true 6375998194047544 (-54)) (S754_finite false 8326269979062133 (-66));
  mkNormalVertex (S754_finite false 7032028544567349 (-53)) (S754_finite false 5628517749494353 (-53)) (S754_finite false 5548160806770956 (-66));
  mkNormalVertex (S754_finite false 6869259446834925 (-53)) (S754_finite false 5089382830902576 (-53)) (S754_finite false 5671383010747666 (-54));
  mkNormalVertex (S754_finite false 7637942838433776 (-53)) (S754_finite true 7169694577976811 (-54)) (S754_finite false 6305651967868017 (-54));
  mkNormalVertex (S754_finite false 7783490171191136 (-53)) (S754_finite true 6399813228877079 (-54)) (S754_finite false 6421070219118268 (-54));
  mkNormalVertex (S754_finite false 6494109597874963 (-53)) (S754_finite false 5635129033747333 (-53)) (S754_finite false 5367083791125496 (-54));
  mkNormalVertex (S754_finite false 5254412735647941 (-53)) (S754_finite false 5090553766805693 (-53)) (S754_finite false 5254241598862101 (-53));
  mkNormalVertex (S754_finite false 5841033608710712 (-53)) (S754_finite true 7182809060091714 (-54)) (S754_finite false 5840700342338287 (-53));
  mkNormalVertex (S754_finite false 5952605785879189 (-53)) (S754_finite true 6411216343133581 (-54)) (S754_finite false 5951488893171601 (-53));
  mkNormalVertex (S754_finite false 4970730995119873 (-53)) (S754_finite false 5632111621996995 (-53)) (S754_finite false 4969992404780985 (-53));
  mkNormalVertex (S754_finite false 5671364996349156 (-54)) (S754_finite false 5089526946090652 (-53)) (S754_finite false 6869151360443868 (-53));
  mkNormalVertex (S754_finite false 6305850126251621 (-54)) (S754_finite true 7169298261209602 (-54)) (S754_finite false 7637996881629304 (-53));
  mkNormalVertex (S754_finite false 6421664694269081 (-54)) (S754_finite true 6398714350568001 (-54)) (S754_finite false 7783598257582192 (-53));
  mkNormalVertex (S754_finite false 5367984511050970 (-54)) (S754_finite false 5634138241829312 (-53)) (S754_finite false 6494794145018323 (-53));
  mkNormalVertex (S754_finite true 5105763611697625 (-68)) (S754_finite false 5096309367129472 (-53)) (S754_finite false 7426796073504138 (-53));
  mkNormalVertex (S754_finite true 4950338724830177 (-67)) (S754_finite true 7156616124658927 (-54)) (S754_finite false 8265915763275063 (-53));
  mkNormalVertex (S754_finite true 8326048618133248 (-66)) (S754_finite true 6375998194047544 (-54)) (S754_finite false 8424154239782353 (-53));
  mkNormalVertex (S754_finite true 5547814007982371 (-66)) (S754_finite false 5628517749494353 (-53)) (S754_finite false 7032028544567349 (-53));
  mkNormalVertex (S754_finite true 5671383010747666 (-54)) (S754_finite false 5089382830902576 (-53)) (S754_finite false 6869259446834925 (-53));
  mkNormalVertex (S754_finite true 6305651967868017 (-54)) (S754_finite true 7169694577976811 (-54)) (S754_finite false 7637942838433776 (-53));
  mkNormalVertex (S754_finite true 6421070219118268 (-54)) (S754_finite true 6399813228877079 (-54)) (S754_finite false 7783490171191136 (-53));
  mkNormalVertex (S754_finite true 5367083791125496 (-54)) (S754_finite false 5635129033747333 (-53)) (S754_finite false 6494109597874963 (-53));
  mkNormalVertex (S754_finite true 5254241598862101 (-53)) (S754_finite false 5090553766805693 (-53)) (S754_finite false 5254412735647941 (-53));
  mkNormalVertex (S754_finite true 5840700342338287 (-53)) (S754_finite true 7182809060091714 (-54)) (S754_finite false 5841033608710712 (-53));
  mkNormalVertex (S754_finite true 5951488893171601 (-53)) (S754_finite true 6411216343133581 (-54)) (S754_finite false 5952605785879189 (-53));
  mkNormalVertex (S754_finite true 4969992404780985 (-53)) (S754_finite false 5632111621996995 (-53)) (S754_finite false 4970730995119873 (-53));
  mkNormalVertex (S754_finite true 6869151360443868 (-53)) (S754_finite false 5089526946090652 (-53)) (S754_finite false 5671364996349156 (-54));
  mkNormalVertex (S754_finite true 7637996881629304 (-53)) (S754_finite true 7169298261209602 (-54)) (S754_finite false 6305850126251621 (-54));
  mkNormalVertex (S754_finite true 7783598257582192 (-53)) (S754_finite true 6398714350568001 (-54)) (S754_finite false 6421664694269081 (-54));
  mkNormalVertex (S754_finite true 6494794145018323 (-53)) (S754_finite false 5634138241829312 (-53)) (S754_finite false 5367984511050970 (-54));
  mkNormalVertex (S754_finite true 7426796073504138 (-53)) (S754_finite false 5096309367129472 (-53)) (S754_finite true 5102428440369098 (-68));
  mkNormalVertex (S754_finite true 8265915763275063 (-53)) (S754_finite true 7156616124658927 (-54)) (S754_finite true 4947593849312009 (-67));
  mkNormalVertex (S754_finite true 8424154239782353 (-53)) (S754_finite true 6375998194047544 (-54)) (S754_finite true 8326048618133248 (-66));
  mkNormalVertex (S754_finite true 7032028544567349 (-53)) (S754_finite false 5628517749494353 (-53)) (S754_finite true 5547909931051554 (-66));
  mkNormalVertex (S754_finite true 6869250439635670 (-53)) (S754_finite false 5089382830902576 (-53)) (S754_finite true 5671383010747666 (-54));
  mkNormalVertex (S754_finite true 7637942838433776 (-53)) (S754_finite true 7169694577976811 (-54)) (S754_finite true 6305651967868017 (-54));
  mkNormalVertex (S754_finite true 7783490171191136 (-53)) (S754_finite true 6399813228877079 (-54)) (S754_finite true 6421070219118268 (-54));
  mkNormalVertex (S754_finite true 6494109597874963 (-53)) (S754_finite false 5635129033747333 (-53)) (S754_finite true 5367083791125496 (-54));
  mkNormalVertex (S754_finite true 5254412735647941 (-53)) (S754_finite false 5090553766805693 (-53)) (S754_finite true 5254241598862101 (-53));
  mkNormalVertex (S754_finite true 5841033608710712 (-53)) (S754_finite true 7182809060091714 (-54)) (S754_finite true 5840700342338287 (-53));
  mkNormalVertex (S754_finite true 5952605785879189 (-53)) (S754_finite true 6411216343133581 (-54)) (S754_finite true 5951488893171601 (-53));
  mkNormalVertex (S754_finite true 4970730995119873 (-53)) (S754_finite false 5632111621996995 (-53)) (S754_finite true 4969992404780985 (-53));
  mkNormalVertex (S754_finite true 5671364996349156 (-54)) (S754_finite false 5089526946090652 (-53)) (S754_finite true 6869151360443868 (-53));
  mkNormalVertex (S754_finite true 6305850126251621 (-54)) (S754_finite true 7169298261209602 (-54)) (S754_finite true 7637996881629304 (-53));
  mkNormalVertex (S754_finite true 6421664694269081 (-54)) (S754_finite true 6398714350568001 (-54)) (S754_finite true 7783598257582192 (-53));
  mkNormalVertex (S754_finite true 5367984511050970 (-54)) (S754_finite false 5634138241829312 (-53)) (S754_finite true 6494794145018323 (-53));
  mkNormalVertex (S754_finite false 5103638546780333 (-68)) (S754_finite false 5096309367129472 (-53)) (S754_finite true 7426796073504138 (-53));
  mkNormalVertex (S754_finite false 4948803955723245 (-67)) (S754_finite true 7156616124658927 (-54)) (S754_finite true 8265915763275063 (-53));
  mkNormalVertex (S754_finite false 8326048618133248 (-66)) (S754_finite true 6375998194047544 (-54)) (S754_finite true 8424154239782353 (-53));
  mkNormalVertex (S754_finite false 5547814007982371 (-66)) (S754_finite false 5628517749494353 (-53)) (S754_finite true 7032028544567349 (-53));
  mkNormalVertex (S754_finite false 5671383010747666 (-54)) (S754_finite false 5089382830902576 (-53)) (S754_finite true 6869259446834925 (-53));
  mkNormalVertex (S754_finite false 6305651967868017 (-54)) (S754_finite true 7169694577976811 (-54)) (S754_finite true 7637942838433776 (-53));
  mkNormalVertex (S754_finite false 6421070219118268 (-54)) (S754_finite true 6399813228877079 (-54)) (S754_finite true 7783490171191136 (-53));
  mkNormalVertex (S754_finite false 5367083791125496 (-54)) (S754_finite false 5635129033747333 (-53)) (S754_finite true 6494109597874963 (-53));
  mkNormalVertex (S754_finite false 5254241598862101 (-53)) (S754_finite false 5090553766805693 (-53)) (S754_finite true 5254412735647941 (-53));
  mkNormalVertex (S754_finite false 5840700342338287 (-53)) (S754_finite true 7182809060091714 (-54)) (S754_finite true 5841033608710712 (-53));
  mkNormalVertex (S754_finite false 5951488893171601 (-53)) (S754_finite true 6411216343133581 (-54)) (S754_finite true 5952605785879189 (-53));
  mkNormalVertex (S754_finite false 4969992404780985 (-53)) (S754_finite false 5632111621996995 (-53)) (S754_finite true 4970730995119873 (-53));
  mkNormalVertex (S754_finite false 6869151360443868 (-53)) (S754_finite false 5089526946090652 (-53)) (S754_finite true 5671364996349156 (-54));
  mkNormalVertex (S754_finite false 7637996881629304 (-53)) (S754_finite true 7169298261209602 (-54)) (S754_finite true 6305850126251621 (-54));
  mkNormalVertex (S754_finite false 7783598257582192 (-53)) (S754_finite true 6398714350568001 (-54)) (S754_finite true 6421664694269081 (-54));
  mkNormalVertex (S754_finite false 6494794145018323 (-53)) (S754_finite false 5634138241829312 (-53)) (S754_finite true 5367984511050970 (-54));
  mkNormalVertex (S754_finite false 8523836913934571 (-55)) (S754_finite false 8751493875098150 (-53)) (S754_finite false 5028297250781323 (-79));
  mkNormalVertex (S754_finite false 6236008303230359 (-55)) (S754_finite false 8871253596389186 (-53)) (S754_finite true 5738867579776214 (-82));
  mkNormalVertex (S754_finite false 6840121157245838 (-54)) (S754_finite false 8332632088154930 (-53)) (S754_finite false 5902411064653681 (-81));
  mkNormalVertex (S754_finite false 4743848653092202 (-53)) (S754_finite false 7656731856079166 (-53)) (S754_finite false 6443671332611543 (-81));
  mkNormalVertex (S754_finite false 7853485116599728 (-55)) (S754_finite false 8752971055775928 (-53)) (S754_finite false 6500762315244514 (-56));
  mkNormalVertex (S754_finite false 5749835716256460 (-55)) (S754_finite false 8871884100337018 (-53)) (S754_finite false 4753026989132784 (-56));
  mkNormalVertex (S754_finite false 6314010648776416 (-54)) (S754_finite false 8334469556802897 (-53)) (S754_finite false 5214808080524845 (-55));
  mkNormalVertex (S754_finite false 8747611772219357 (-54)) (S754_finite false 7662001067643189 (-53)) (S754_finite false 7258865850598746 (-55));
  mkNormalVertex (S754_finite false 6003514476066985 (-55)) (S754_finite false 8753538509328976 (-53)) (S754_finite false 6003514476066985 (-55));
  mkNormalVertex (S754_finite false 8784397173975719 (-56)) (S754_finite false 8872325453100500 (-53)) (S754_finite false 8784397173975719 (-56));
  mkNormalVertex (S754_finite false 4821878020236024 (-54)) (S754_finite false 8336928522199441 (-53)) (S754_finite false 4821878020236024 (-54));
  mkNormalVertex (S754_finite false 6689016382548303 (-54)) (S754_finite false 7665387774562972 (-53)) (S754_finite false 6689016382548303 (-54));
  mkNormalVertex (S754_finite false 6500762315244514 (-56)) (S754_finite false 8752971055775928 (-53)) (S754_finite false 7853485116599728 (-55));
  mkNormalVertex (S754_finite false 4753026989132784 (-56)) (S754_finite false 8871884100337018 (-53)) (S754_finite false 5749835716256460 (-55));
  mkNormalVertex (S754_finite false 5214808080524845 (-55)) (S754_finite false 8334469556802897 (-53)) (S754_finite false 6314010648776416 (-54));
  mkNormalVertex (S754_finite false 7258865850598746 (-55)) (S754_finite false 7662001067643189 (-53)) (S754_finite false 8747611772219357 (-54));
  mkNormalVertex (S754_finite true 4995825503266474 (-79)) (S754_finite false 8751493875098150 (-53)) (S754_finite false 8523836913934571 (-55));
  mkNormalVertex (S754_finite false 6660891123879899 (-82)) (S754_finite false 8871253596389186 (-53)) (S754_finite false 6236008303230359 (-55));
  mkNormalVertex (S754_finite false 5411751595801609 (-84)) (S754_finite false 8332632088154930 (-53)) (S754_finite false 6840121157245838 (-54));
  mkNormalVertex (S754_finite false 6177538402681578 (-81)) (S754_finite false 7656731856079166 (-53)) (S754_finite false 4743848653092202 (-53));
  mkNormalVertex (S754_finite true 6500762315244514 (-56)) (S754_finite false 8752971055775928 (-53)) (S754_finite false 7853485116599728 (-55));
  mkNormalVertex (S754_finite true 4753026989132784 (-56)) (S754_finite false 8871884100337018 (-53)) (S754_finite false 5749835716256460 (-55));
  mkNormalVertex (S754_finite true 5214808080524845 (-55)) (S754_finite false 8334469556802897 (-53)) (S754_finite false 6314010648776416 (-54));
  mkNormalVertex (S754_finite true 7258865850598746 (-55)) (S754_finite false 7662001067643189 (-53)) (S754_finite false 8747611772219357 (-54));
  mkNormalVertex (S754_finite true 6003514476066985 (-55)) (S754_finite false 8753538509328976 (-53)) (S754_finite false 6003514476066985 (-55));
  mkNormalVertex (S754_finite true 8784397173975719 (-56)) (S754_finite false 8872325453100500 (-53)) (S754_finite false 8784397173975719 (-56));
  mkNormalVertex (S754_finite true 4821878020236024 (-54)) (S754_finite false 8336928522199441 (-53)) (S754_finite false 4821878020236024 (-54));
  mkNormalVertex (S754_finite true 6689016382548303 (-54)) (S754_finite false 7665387774562972 (-53)) (S754_finite false 6689016382548303 (-54));
  mkNormalVertex (S754_finite true 7853485116599728 (-55)) (S754_finite false 8752971055775928 (-53)) (S754_finite false 6500762315244514 (-56));
  mkNormalVertex (S754_finite true 5749835716256460 (-55)) (S754_finite false 8871884100337018 (-53)) (S754_finite false 4753026989132784 (-56));
  mkNormalVertex (S754_finite true 6314010648776416 (-54)) (S754_finite false 8334469556802897 (-53)) (S754_finite false 5214808080524845 (-55));
  mkNormalVertex (S754_finite true 8747611772219357 (-54)) (S754_finite false 7662001067643189 (-53)) (S754_finite false 7258865850598746 (-55));
  mkNormalVertex (S754_finite true 8523800885137552 (-55)) (S754_finite false 8751493875098150 (-53)) (S754_finite true 7542451920801083 (-80));
  mkNormalVertex (S754_finite true 6236008303230359 (-55)) (S754_finite false 8871253596389186 (-53)) (S754_finite false 5738867579776214 (-81));
  mkNormalVertex (S754_finite true 6840121157245838 (-54)) (S754_finite false 8332632088154930 (-53)) (S754_finite true 5902411064653681 (-81));
  mkNormalVertex (S754_finite true 4743848653092202 (-53)) (S754_finite false 7656731856079166 (-53)) (S754_zero false);
  mkNormalVertex (S754_finite true 7853485116599728 (-55)) (S754_finite false 8752971055775928 (-53)) (S754_finite true 6500762315244514 (-56));
  mkNormalVertex (S754_finite true 5749835716256460 (-55)) (S754_finite false 8871884100337018 (-53)) (S754_finite true 4753026989132784 (-56));
  mkNormalVertex (S754_finite true 6314010648776416 (-54)) (S754_finite false 8334469556802897 (-53)) (S754_finite true 5214808080524845 (-55));
  mkNormalVertex (S754_finite true 8747611772219357 (-54)) (S754_finite false 7662001067643189 (-53)) (S754_finite true 7258865850598746 (-55));
  mkNormalVertex (S754_finite true 6003514476066985 (-55)) (S754_finite false 8753538509328976 (-53)) (S754_finite true 6003514476066985 (-55));
  mkNormalVertex (S754_finite true 8784397173975719 (-56)) (S754_finite false 8872325453100500 (-53)) (S754_finite true 8784397173975719 (-56));
  mkNormalVertex (S754_finite true 4821878020236024 (-54)) (S754_finite false 8336928522199441 (-53)) (S754_finite true 4821878020236024 (-54));
  mkNormalVertex (S754_finite true 6689016382548303 (-54)) (S754_finite false 7665387774562972 (-53)) (S754_finite true 6689016382548303 (-54));
  mkNormalVertex (S754_finite true 6500762315244514 (-56)) (S754_finite false 8752971055775928 (-53)) (S754_finite true 7853485116599728 (-55));
  mkNormalVertex (S754_finite true 4753026989132784 (-56)) (S754_finite false 8871884100337018 (-53)) (S754_finite true 5749835716256460 (-55));
  mkNormalVertex (S754_finite true 5214808080524845 (-55)) (S754_finite false 8334469556802897 (-53)) (S754_finite true 6314010648776416 (-54));
  mkNormalVertex (S754_finite true 7258865850598746 (-55)) (S754_finite false 7662001067643189 (-53)) (S754_finite true 8747593757820847 (-54));
  mkNormalVertex (S754_finite false 7449267918625187 (-80)) (S754_finite false 8751493875098150 (-53)) (S754_finite true 8523836913934571 (-55));
  mkNormalVertex (S754_finite true 6660891123879899 (-82)) (S754_finite false 8871253596389186 (-53)) (S754_finite true 6236008303230359 (-55));
  mkNormalVertex (S754_finite true 5411751595801609 (-84)) (S754_finite false 8332632088154930 (-53)) (S754_finite true 6840121157245838 (-54));
  mkNormalVertex (S754_finite true 6177538402681578 (-81)) (S754_finite false 7656731856079166 (-53)) (S754_finite true 4743848653092202 (-53));
  mkNormalVertex (S754_finite false 6500762315244514 (-56)) (S754_finite false 8752971055775928 (-53)) (S754_finite true 7853485116599728 (-55));
  mkNormalVertex (S754_finite false 4753026989132784 (-56)) (S754_finite false 8871884100337018 (-53)) (S754_finite true 5749835716256460 (-55));
  mkNormalVertex (S754_finite false 5214808080524845 (-55)) (S754_finite false 8334469556802897 (-53)) (S754_finite true 6314010648776416 (-54));
  mkNormalVertex (S754_finite false 7258865850598746 (-55)) (S754_finite false 7662001067643189 (-53)) (S754_finite true 8747611772219357 (-54));
  mkNormalVertex (S754_finite false 6003514476066985 (-55)) (S754_finite false 8753538509328976 (-53)) (S754_finite true 6003514476066985 (-55));
  mkNormalVertex (S754_finite false 8784397173975719 (-56)) (S754_finite false 8872325453100500 (-53)) (S754_finite true 8784397173975719 (-56));
  mkNormalVertex (S754_finite false 4821878020236024 (-54)) (S754_finite false 8336928522199441 (-53)) (S754_finite true 4821878020236024 (-54));
  mkNormalVertex (S754_finite false 6689016382548303 (-54)) (S754_finite false 7665387774562972 (-53)) (S754_finite true 6689016382548303 (-54));
  mkNormalVertex (S754_finite false 7853485116599728 (-55)) (S754_finite false 8752971055775928 (-53)) (S754_finite true 6500762315244514 (-56));
  mkNormalVertex (S754_finite false 5749835716256460 (-55)) (S754_finite false 8871884100337018 (-53)) (S754_finite true 4753026989132784 (-56));
  mkNormalVertex (S754_finite false 6314010648776416 (-54)) (S754_finite false 8334469556802897 (-53)) (S754_finite true 5214808080524845 (-55));
  mkNormalVertex (S754_finite false 8747611772219357 (-54)) (S754_finite false 7662001067643189 (-53)) (S754_finite true 7258865850598746 (-55))].

(** tests/test_obj_parser.rs:565 *)
Definition faces : list element :=
  map (fun '(a, b, c) => Face (V (N.to_nat a)) (V (N.to_nat b)) (V (N.to_nat c))) [
  (6, 5, 0); (0, 1, 6); (7, 6, 1); (1, 2, 7); (8, 7, 2); (2, 3, 8); (9, 8, 3); (3, 4, 9);
  (11, 10, 5); (5, 6, 11); (12, 11, 6); (6, 7, 12); (13, 12, 7); (7, 8, 13); (14, 13, 8); (8, 9, 14);
  (16, 15, 10); (10, 11, 16); (17, 16, 11); (11, 12, 17); (18, 17, 12); (12, 13, 18); (19, 18, 13); (13, 14, 19);
  (21, 20, 15); (15, 16, 21); (22, 21, 16); (16, 17, 22); (23, 22, 17); (17, 18, 23); (24, 23, 18); (18, 19, 24);
  (26, 25, 20); (20, 21, 26); (27, 26, 21); (21, 22, 27); (28, 27, 22); (22, 23, 28); (29, 28, 23); (23, 24, 29);
  (31, 30, 25); (25, 26, 31); (32, 31, 26); (26, 27, 32); (33, 32, 27); (27, 28, 33); (34, 33, 28); (28, 29, 34);
  (36, 35, 30); (30, 31, 36); (37, 36, 31); (31, 32, 37); (38, 37, 32); (32, 33, 38); (39, 38, 33); (33, 34, 39);
  (41, 40, 35); (35, 36, 41); (42, 41, 36); (36, 37, 42); (43, 42, 37); (37, 38, 43); (44, 43, 38); (38, 39, 44);
  (46, 45, 40); (40, 41, 46); (47, 46, 41); (41, 42, 47); (48, 47, 42); (42, 43, 48); (49, 48, 43); (43, 44, 49);
  (51, 50, 45); (45, 46, 51); (52, 51, 46); (46, 47, 52); (53, 52, 47); (47, 48, 53); (54, 53, 48); (48, 49, 54);
  (56, 55, 50); (50, 51, 56); (57, 56, 51); (51, 52, 57); (58, 57, 52); (52, 53, 58); (59, 58, 53); (53, 54, 59);
  (61, 60, 55); (55, 56, 61); (62, 61, 56); (56, 57, 62); (63, 62, 57); (57, 58, 63); (64, 63, 58); (58, 59, 64);
  (66, 65, 60); (60, 61, 66); (67, 66, 61); (61, 62, 67); (68, 67, 62); (62, 63, 68); (69, 68, 63); (63, 64, 69);
  (71, 70, 65); (65, 66, 71); (72, 71, 66); (66, 67, 72); (73, 72, 67); (67, 68, 73); (74, 73, 68); (68, 69, 74);
  (76, 75, 70); (70, 71, 76); (77, 76, 71); (71, 72, 77); (78, 77, 72); (72, 73, 78); (79, 78, 73); (73, 74, 79);
  (1, 0, 75); (75, 76, 1); (2, 1, 76); (76, 77, 2); (3, 2, 77); (77, 78, 3); (4, 3, 78); (78, 79, 4);
  (84, 9, 4); (4, 80, 84); (85, 84, 80); (80, 81, 85); (86, 85, 81); (81, 82, 86); (87, 86, 82); (82, 83, 87);
  (88, 14, 9); (9, 84, 88); (89, 88, 84); (84, 85, 89); (90, 89, 85); (85, 86, 90); (91, 90, 86); (86, 87, 91);
  (92, 19, 14); (14, 88, 92); (93, 92, 88); (88, 89, 93); (94, 93, 89); (89, 90, 94); (95, 94, 90); (90, 91, 95);
  (96, 24, 19); (19, 92, 96); (97, 96, 92); (92, 93, 97); (98, 97, 93); (93, 94, 98); (99, 98, 94); (94, 95, 99);
  (100, 29, 24); (24, 96, 100); (101, 100, 96); (96, 97, 101); (102, 101, 97); (97, 98, 102); (103, 102, 98); (98, 99, 103);
  (104, 34, 29); (29, 100, 104); (105, 104, 100); (100, 101, 105); (106, 105, 101); (101, 102, 106); (107, 106, 102); (102, 103, 107);
  (108, 39, 34); (34, 104, 108); (109, 108, 104); (104, 105, 109); (110, 109, 105); (105, 106, 110); (111, 110, 106); (106, 107, 111);
  (112, 44, 39); (39, 108, 112); (113, 112, 108); (108, 109, 113); (114, 113, 109); (109, 110, 114); (115, 114, 110); (110, 111, 115);
  (116, 49, 44); (44, 112, 116); (117, 116, 112); (112, 113, 117); (118, 117, 113); (113, 114, 118); (119, 118, 114); (114, 115, 119);
  (120, 54, 49); (49, 116, 120); (121, 120, 116); (116, 117, 121); (122, 121, 117); (117, 118, 122); (123, 122, 118); (118, 119, 123);
  (124, 59, 54); (54, 120, 124); (125, 124, 120); (120, 121, 125); (126, 125, 121); (121, 122, 126); (127, 126, 122); (122, 123, 127);
  (128, 64, 59); (59, 124, 128); (129, 128, 124); (124, 125, 129); (130, 129, 125); (125, 126, 130); (131, 130, 126); (126, 127, 131);
  (132, 69, 64); (64, 128, 132); (133, 132, 128); (128, 129, 133); (134, 133, 129); (129, 130, 134); (135, 134, 130); (130, 131, 135);
  (136, 74, 69); (69, 132, 136); (137, 136, 132); (132, 133, 137); (138, 137, 133); (133, 134, 138); (139, 138, 134); (134, 135, 139);
  (140, 79, 74); (74, 136, 140); (141, 140, 136); (136, 137, 141); (142, 141, 137); (137, 138, 142); (143, 142, 138); (138, 139, 143);
  (80, 4, 79); (79, 140, 80); (81, 80, 140); (140, 141, 81); (82, 81, 141); (141, 142, 82); (83, 82, 142); (142, 143, 83);
  (148, 87, 83); (83, 144, 148); (149, 148, 144); (144, 145, 149); (150, 149, 145); (145, 146, 150); (151, 150, 146); (146, 147, 151);
  (152, 91, 87); (87, 148, 152); (153, 152, 148); (148, 149, 153); (154, 153, 149); (149, 150, 154); (155, 154, 150); (150, 151, 155);
  (156, 95, 91); (91, 152, 156); (157, 156, 152); (152, 153, 157); (158, 157, 153); (153, 154, 158); (159, 158, 154); (154, 155, 159);
  (160, 99, 95); (95, 156, 160); (161, 160, 156); (156, 157, 161); (162, 161, 157); (157, 158, 162); (163, 162, 158); (158, 159, 163);
  (164, 103, 99); (99, 160, 164); (165, 164, 160); (160, 161, 165); (166, 165, 161); (161, 162, 166); (167, 166, 162); (162, 163, 167);
  (168, 107, 103); (103, 164, 168); (169, 168, 164); (164, 165, 169); (170, 169, 165); (165, 166, 170); (171, 170, 166); (166, 167, 171);
  (172, 111, 107); (107, 168, 172); (173, 172, 168); (168, 169, 173); (174, 173, 169); (169, 170, 174); (175, 174, 170); (170, 171, 175);
  (176, 115, 111); (111, 172, 176); (177, 176, 172); (172, 173, 177); (178, 177, 173); (173, 174, 178); (179, 178, 174); (174, 175, 179);
  (180, 119, 115); (115, 176, 180); (181, 180, 176); (176, 177, 181); (182, 181, 177); (177, 178, 182); (183, 182, 178); (178, 179, 183);
  (184, 123, 119); (119, 180, 184); (185, 184, 180); (180, 181, 185); (186, 185, 181); (181, 182, 186); (187, 186, 182); (182, 183, 187);
  (188, 127, 123); (123, 184, 188); (189, 188, 184); (184, 185, 189); (190, 189, 185); (185, 186, 190); (191, 190, 186); (186, 187, 191);
  (192, 131, 127); (127, 188, 192); (193, 192, 188); (188, 189, 193); (194, 193, 189); (189, 190, 194); (195, 194, 190); (190, 191, 195);
  (196, 135, 131); (131, 192, 196); (197, 196, 192); (192, 193, 197); (198, 197, 193); (193, 194, 198); (199, 198, 194); (194, 195, 199);
  (200, 139, 135); (135, 196, 200); (201, 200, 196); (196, 197, 201); (202, 201, 197); (197, 198, 202); (203, 202, 198); (198, 199, 203);
  (204, 143, 139); (139, 200, 204); (205, 204, 200); (200, 201, 205); (206, 205, 201); (201, 202, 206); (207, 206, 202); (202, 203, 207);
  (144, 83, 143); (143, 204, 144); (145, 144, 204); (204, 205, 145); (146, 145, 205); (205, 206, 146); (147, 146, 206); (206, 207, 147);
  (212, 151, 147); (147, 208, 212); (213, 212, 208); (208, 209, 213); (214, 213, 209); (209, 210, 214); (211, 214, 210); (210, 211, 211);
  (215, 155, 151); (151, 212, 215); (216, 215, 212); (212, 213, 216); (217, 216, 213); (213, 214, 217); (211, 217, 214); (214, 211, 211);
  (218, 159, 155); (155, 215, 218); (219, 218, 215); (215, 216, 219); (220, 219, 216); (216, 217, 220); (211, 220, 217); (217, 211, 211);
  (221, 163, 159); (159, 218, 221); (222, 221, 218); (218, 219, 222); (223, 222, 219); (219, 220, 223); (211, 223, 220); (220, 211, 211);
  (224, 167, 163); (163, 221, 224); (225, 224, 221); (221, 222, 225); (226, 225, 222); (222, 223, 226); (211, 226, 223); (223, 211, 211);
  (227, 171, 167); (167, 224, 227); (228, 227, 224); (224, 225, 228); (229, 228, 225); (225, 226, 229); (211, 229, 226); (226, 211, 211);
  (230, 175, 171); (171, 227, 230); (231, 230, 227); (227, 228, 231); (232, 231, 228); (228, 229, 232); (211, 232, 229); (229, 211, 211);
  (233, 179, 175); (175, 230, 233); (234, 233, 230); (230, 231, 234); (235, 234, 231); (231, 232, 235); (211, 235, 232); (232, 211, 211);
  (236, 183, 179); (179, 233, 236); (237, 236, 233); (233, 234, 237); (238, 237, 234); (234, 235, 238); (211, 238, 235); (235, 211, 211);
  (239, 187, 183); (183, 236, 239); (240, 239, 236); (236, 237, 240); (241, 240, 237); (237, 238, 241); (211, 241, 238); (238, 211, 211);
  (242, 191, 187); (187, 239, 242); (243, 242, 239); (239, 240, 243); (244, 243, 240); (240, 241, 244); (211, 244, 241); (241, 211, 211);
  (245, 195, 191); (191, 242, 245); (246, 245, 242); (242, 243, 246); (247, 246, 243); (243, 244, 247); (211, 247, 244); (244, 211, 211);
  (248, 199, 195); (195, 245, 248); (249, 248, 245); (245, 246, 249); (250, 249, 246); (246, 247, 250); (211, 250, 247); (247, 211, 211);
  (251, 203, 199); (199, 248, 251); (252, 251, 248); (248, 249, 252); (253, 252, 249); (249, 250, 253); (211, 253, 250); (250, 211, 211);
  (254, 207, 203); (203, 251, 254); (255, 254, 251); (251, 252, 255); (256, 255, 252); (252, 253, 256); (211, 256, 253); (253, 211, 211);
  (208, 147, 207); (207, 254, 208); (209, 208, 254); (254, 255, 209); (210, 209, 255); (255, 256, 210); (211, 210, 256); (256, 211, 211);
  (263, 262, 257); (257, 258, 263); (264, 263, 258); (258, 259, 264); (265, 264, 259); (259, 260, 265); (266, 265, 260); (260, 261, 266);
  (268, 267, 262); (262, 263, 268); (269, 268, 263); (263, 264, 269); (270, 269, 264); (264, 265, 270); (271, 270, 265); (265, 266, 271);
  (273, 272, 267); (267, 268, 273); (274, 273, 268); (268, 269, 274); (275, 274, 269); (269, 270, 275); (276, 275, 270); (270, 271, 276);
  (278, 277, 272); (272, 273, 278); (279, 278, 273); (273, 274, 279); (280, 279, 274); (274, 275, 280); (281, 280, 275); (275, 276, 281);
  (283, 282, 277); (277, 278, 283); (284, 283, 278); (278, 279, 284); (285, 284, 279); (279, 280, 285); (286, 285, 280); (280, 281, 286);
  (288, 287, 282); (282, 283, 288); (289, 288, 283); (283, 284, 289); (290, 289, 284); (284, 285, 290); (291, 290, 285); (285, 286, 291);
  (293, 292, 287); (287, 288, 293); (294, 293, 288); (288, 289, 294); (295, 294, 289); (289, 290, 295); (296, 295, 290); (290, 291, 296);
  (258, 257, 292); (292, 293, 258); (259, 258, 293); (293, 294, 259); (260, 259, 294); (294, 295, 260); (261, 260, 295); (295, 296, 261);
  (301, 266, 261); (261, 297, 301); (302, 301, 297); (297, 298, 302); (303, 302, 298); (298, 299, 303); (304, 303, 299); (299, 300, 304);
  (305, 271, 266); (266, 301, 305); (306, 305, 301); (301, 302, 306); (307, 306, 302); (302, 303, 307); (308, 307, 303); (303, 304, 308);
  (309, 276, 271); (271, 305, 309); (310, 309, 305); (305, 306, 310); (311, 310, 306); (306, 307, 311); (312, 311, 307); (307, 308, 312);
  (313, 281, 276); (276, 309, 313); (314, 313, 309); (309, 310, 314); (315, 314, 310); (310, 311, 315); (316, 315, 311); (311, 312, 316);
  (317, 286, 281); (281, 313, 317); (318, 317, 313); (313, 314, 318); (319, 318, 314); (314, 315, 319); (320, 319, 315); (315, 316, 320);
  (321, 291, 286); (286, 317, 321); (322, 321, 317); (317, 318, 322); (323, 322, 318); (318, 319, 323); (324, 323, 319); (319, 320, 324);
  (325, 296, 291); (291, 321, 325); (326, 325, 321); (321, 322, 326); (327, 326, 322); (322, 323, 327); (328, 327, 323); (323, 324, 328);
  (297, 261, 296); (296, 325, 297); (298, 297, 325); (325, 326, 298); (299, 298, 326); (326, 327, 299); (300, 299, 327); (327, 328, 300);
  (335, 334, 329); (329, 330, 335); (336, 335, 330); (330, 331, 336); (337, 336, 331); (331, 332, 337); (338, 337, 332); (332, 333, 338);
  (340, 339, 334); (334, 335, 340); (341, 340, 335); (335, 336, 341); (342, 341, 336); (336, 337, 342); (343, 342, 337); (337, 338, 343);
  (345, 344, 339); (339, 340, 345); (346, 345, 340); (340, 341, 346); (347, 346, 341); (341, 342, 347); (348, 347, 342); (342, 343, 348);
  (350, 349, 344); (344, 345, 350); (351, 350, 345); (345, 346, 351); (352, 351, 346); (346, 347, 352); (353, 352, 347); (347, 348, 353);
  (355, 354, 349); (349, 350, 355); (356, 355, 350); (350, 351, 356); (357, 356, 351); (351, 352, 357); (358, 357, 352); (352, 353, 358);
  (360, 359, 354); (354, 355, 360); (361, 360, 355); (355, 356, 361); (362, 361, 356); (356, 357, 362); (363, 362, 357); (357, 358, 363);
  (365, 364, 359); (359, 360, 365); (366, 365, 360); (360, 361, 366); (367, 366, 361); (361, 362, 367); (368, 367, 362); (362, 363, 368);
  (330, 329, 364); (364, 365, 330); (331, 330, 365); (365, 366, 331); (332, 331, 366); (366, 367, 332); (333, 332, 367); (367, 368, 333);
  (373, 338, 333); (333, 369, 373); (374, 373, 369); (369, 370, 374); (375, 374, 370); (370, 371, 375); (376, 375, 371); (371, 372, 376);
  (377, 343, 338); (338, 373, 377); (378, 377, 373); (373, 374, 378); (379, 378, 374); (374, 375, 379); (380, 379, 375); (375, 376, 380);
  (381, 348, 343); (343, 377, 381); (382, 381, 377); (377, 378, 382); (383, 382, 378); (378, 379, 383); (384, 383, 379); (379, 380, 384);
  (385, 353, 348); (348, 381, 385); (386, 385, 381); (381, 382, 386); (387, 386, 382); (382, 383, 387); (388, 387, 383); (383, 384, 388);
  (389, 358, 353); (353, 385, 389); (390, 389, 385); (385, 386, 390); (391, 390, 386); (386, 387, 391); (392, 391, 387); (387, 388, 392);
  (393, 363, 358); (358, 389, 393); (394, 393, 389); (389, 390, 394); (395, 394, 390); (390, 391, 395); (396, 395, 391); (391, 392, 396);
  (397, 368, 363); (363, 393, 397); (398, 397, 393); (393, 394, 398); (399, 398, 394); (394, 395, 399); (400, 399, 395); (395, 396, 400);
  (369, 333, 368); (368, 397, 369); (370, 369, 397); (397, 398, 370); (371, 370, 398); (398, 399, 371); (372, 371, 399); (399, 400, 372);
  (406, 401, 401); (401, 402, 406); (407, 406, 402); (402, 403, 407); (408, 407, 403); (403, 404, 408); (409, 408, 404); (404, 405, 409);
  (410, 401, 401); (401, 406, 410); (411, 410, 406); (406, 407, 411); (412, 411, 407); (407, 408, 412); (413, 412, 408); (408, 409, 413);
  (414, 401, 401); (401, 410, 414); (415, 414, 410); (410, 411, 415); (416, 415, 411); (411, 412, 416); (417, 416, 412); (412, 413, 417);
  (418, 401, 401); (401, 414, 418); (419, 418, 414); (414, 415, 419); (420, 419, 415); (415, 416, 420); (421, 420, 416); (416, 417, 421);
  (422, 401, 401); (401, 418, 422); (423, 422, 418); (418, 419, 423); (424, 423, 419); (419, 420, 424); (425, 424, 420); (420, 421, 425);
  (426, 401, 401); (401, 422, 426); (427, 426, 422); (422, 423, 427); (428, 427, 423); (423, 424, 428); (429, 428, 424); (424, 425, 429);
  (430, 401, 401); (401, 426, 430); (431, 430, 426); (426, 427, 431); (432, 431, 427); (427, 428, 432); (433, 432, 428); (428, 429, 433);
  (434, 401, 401); (401, 430, 434); (435, 434, 430); (430, 431, 435); (436, 435, 431); (431, 432, 436); (437, 436, 432); (432, 433, 437);
  (438, 401, 401); (401, 434, 438); (439, 438, 434); (434, 435, 439); (440, 439, 435); (435, 436, 440); (441, 440, 436); (436, 437, 441);
  (442, 401, 401); (401, 438, 442); (443, 442, 438); (438, 439, 443); (444, 443, 439); (439, 440, 444); (445, 444, 440); (440, 441, 445);
  (446, 401, 401); (401, 442, 446); (447, 446, 442); (442, 443, 447); (448, 447, 443); (443, 444, 448); (449, 448, 444); (444, 445, 449);
  (450, 401, 401); (401, 446, 450); (451, 450, 446); (446, 447, 451); (452, 451, 447); (447, 448, 452); (453, 452, 448); (448, 449, 453);
  (454, 401, 401); (401, 450, 454); (455, 454, 450); (450, 451, 455); (456, 455, 451); (451, 452, 456); (457, 456, 452); (452, 453, 457);
  (458, 401, 401); (401, 454, 458); (459, 458, 454); (454, 455, 459); (460, 459, 455); (455, 456, 460); (461, 460, 456); (456, 457, 461);
  (462, 401, 401); (401, 458, 462); (463, 462, 458); (458, 459, 463); (464, 463, 459); (459, 460, 464); (465, 464, 460); (460, 461, 465);
  (402, 401, 401); (401, 462, 402); (403, 402, 462); (462, 463, 403); (404, 403, 463); (463, 464, 404); (405, 404, 464); (464, 465, 405);
  (470, 409, 405); (405, 466, 470); (471, 470, 466); (466, 467, 471); (472, 471, 467); (467, 468, 472); (473, 472, 468); (468, 469, 473);
  (474, 413, 409); (409, 470, 474); (475, 474, 470); (470, 471, 475); (476, 475, 471); (471, 472, 476); (477, 476, 472); (472, 473, 477);
  (478, 417, 413); (413, 474, 478); (479, 478, 474); (474, 475, 479); (480, 479, 475); (475, 476, 480); (481, 480, 476); (476, 477, 481);
  (482, 421, 417); (417, 478, 482); (483, 482, 478); (478, 479, 483); (484, 483, 479); (479, 480, 484); (485, 484, 480); (480, 481, 485);
  (486, 425, 421); (421, 482, 486); (487, 486, 482); (482, 483, 487); (488, 487, 483); (483, 484, 488); (489, 488, 484); (484, 485, 489);
  (490, 429, 425); (425, 486, 490); (491, 490, 486); (486, 487, 491); (492, 491, 487); (487, 488, 492); (493, 492, 488); (488, 489, 493);
  (494, 433, 429); (429, 490, 494); (495, 494, 490); (490, 491, 495); (496, 495, 491); (491, 492, 496); (497, 496, 492); (492, 493, 497);
  (498, 437, 433); (433, 494, 498); (499, 498, 494); (494, 495, 499); (500, 499, 495); (495, 496, 500); (501, 500, 496); (496, 497, 501);
  (502, 441, 437); (437, 498, 502); (503, 502, 498); (498, 499, 503); (504, 503, 499); (499, 500, 504); (505, 504, 500); (500, 501, 505);
  (506, 445, 441); (441, 502, 506); (507, 506, 502); (502, 503, 507); (508, 507, 503); (503, 504, 508); (509, 508, 504); (504, 505, 509);
  (510, 449, 445); (445, 506, 510); (511, 510, 506); (506, 507, 511); (512, 511, 507); (507, 508, 512); (513, 512, 508); (508, 509, 513);
  (514, 453, 449); (449, 510, 514); (515, 514, 510); (510, 511, 515); (516, 515, 511); (511, 512, 516); (517, 516, 512); (512, 513, 517);
  (518, 457, 453); (453, 514, 518); (519, 518, 514); (514, 515, 519); (520, 519, 515); (515, 516, 520); (521, 520, 516); (516, 517, 521);
  (522, 461, 457); (457, 518, 522); (523, 522, 518); (518, 519, 523); (524, 523, 519); (519, 520, 524); (525, 524, 520); (520, 521, 525);
  (526, 465, 461); (461, 522, 526); (527, 526, 522); (522, 523, 527); (528, 527, 523); (523, 524, 528); (529, 528, 524); (524, 525, 529);
  (466, 405, 465); (465, 526, 466); (467, 466, 526); (526, 527, 467); (468, 467, 527); (527, 528, 468); (469, 468, 528); (528, 529, 469)]%N.

(** tests/test_obj_parser.rs:2124-2130, 3156-3238 *)
Definition expected : object_set :=
  mkObjectSet [] [mkObject (lit "") vertices [] normals (map lit ["Object001"; "Object002"; "Object003"]) [0%N] faces
    (map (fun k => mkShapeEntry k [0; 1; 2] 0) (seq 0 1024)) [mkGeometry None (seq 0 1024)]].

(** tests/test_obj_parser.rs:3248, [test_parse_object_set]; [assert_eq!] is [==].
    The tests after it (to the end of the file) compare parts of the same value.
    The tokens are computed first: the model of the lexer finds its place in the
    text anew at every step, and that takes minutes. *)
Example test_parse_object_set :
  match ObjModel.parse true teapot with
  | Ok result => object_set_eq result expected
  | _ => false
  end = true.
Proof. rewrite parse_lex, lex_scan. vm_compute. reflexivity. Qed.
