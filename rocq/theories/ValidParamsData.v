(** The parameter files of the repository, line by line: tests/test_datasets/parameters.prm,
    the six corrupted copies beside it, bladex/parameter_files/default.prm and pptc.prm. *)
From Coq Require Import List Ascii String.
From Verif Require Import TextModel ParamsSpec.
Import ListNotations.
Open Scope string_scope.

Definition file_parameters : list ascii := text_of (map L [
"";
"[Original parameters]";
"# This section describes the radial distributions of the parameters:";
"# ""chord lengths"", ""pitch"", ""rake"", ""skew angles"", and ""camber""";
"# at given radial sections.";
"";
"Radial sections =  0.3";
"                   0.4";
"                   0.5";
"                   0.6";
"                   0.7";
"                   0.8";
"                   0.9";
"                   1.0";
"";
"Radial distribution of chord =  0.18";
"                                0.2";
"                                0.3";
"                                0.37";
"                                0.41";
"                                0.42";
"                                0.41";
"                                0.1";
"";
"Radial distribution of pitch =  1.4";
"                                1.5";
"                                1.58";
"                                1.6";
"                                1.64";
"                                1.61";
"                                1.5";
"                                1.3";
"";
"Radial distribution of rake =   0.0";
"                                0.005";
"                                0.013";
"                                0.02";
"                                0.03";
"                                0.029";
"                                0.022";
"                                0.01";
"";
"Radial distribution of skew =   3.6";
"                                -4.4";
"                                -7.4";
"                                -7.4";
"                                -5.0";
"                                -1.3";
"                                4.1";
"                                11.4";
"";
"Radial distribution of camber = 0.015";
"                                0.024";
"                                0.029";
"                                0.03";
"                                0.03";
"                                0.028";
"                                0.025";
"                                0.02";
"";
"";
"[Chord B-Spline]";
"# This section describes the B-Spline construction of the RADII -- CHORD curve.";
"";
"# degree of the B-Spline curve";
"spline degree: 3";
"";
"# number of points to be evaluated with the B-Spline interpolation";
"spline npoints: 500";
"";
"# number of the control points";
"number of control points: 5";
"";
"# Y-deformations of the control points.";
"control points Y-deformations =  1.0";
"                                 2.0";
"                                 3.0";
"                                 4.0";
"                                 5.0";
"";
"";
"[Pitch B-Spline]";
"# This section describes the B-Spline construction of the RADII -- PITCH curve.";
"";
"# degree of the B-Spline curve";
"spline degree: 5";
"";
"# number of points to be evaluated with the B-Spline interpolation";
"spline npoints: 400";
"";
"# number of the control points";
"number of control points: 6";
"";
"# Y-deformations of the control points.";
"control points Y-deformations =  1.0";
"                                 2.0";
"                                 3.0";
"                                 4.0";
"                                 5.0";
"                                 6.0";
"";
"";
"[Rake B-Spline]";
"# This section describes the B-Spline construction of the RADII -- RAKE curve.";
"";
"# degree of the B-Spline curve";
"spline degree: 4";
"";
"# number of points to be evaluated with the B-Spline interpolation";
"spline npoints: 300";
"";
"# number of the control points";
"number of control points: 4";
"";
"# Y-deformations of the control points.";
"control points Y-deformations =  1.0";
"                                 2.0";
"                                 3.0";
"                                 4.0";
"";
"";
"[Skew B-Spline]";
"# This section describes the B-Spline construction of the RADII -- SKEW curve.";
"";
"# degree of the B-Spline curve";
"spline degree: 3";
"";
"# number of points to be evaluated with the B-Spline interpolation";
"spline npoints: 200";
"";
"# number of the control points";
"number of control points: 7";
"";
"# Y-deformations of the control points.";
"control points Y-deformations =  7.0";
"                                 6.0";
"                                 5.0";
"                                 4.0";
"                                 3.0";
"                                 2.0";
"                                 1.0";
"";
"";
"[Camber B-Spline]";
"# This section describes the B-Spline construction of the RADII -- CAMBER curve.";
"";
"# degree of the B-Spline curve";
"spline degree: 2";
"";
"# number of points to be evaluated with the B-Spline interpolation";
"spline npoints: 100";
"";
"# number of the control points";
"number of control points: 5";
"";
"# Y-deformations of the control points.";
"control points Y-deformations =  5.0";
"                                 4.0";
"                                 3.0";
"                                 2.0";
"                                 1.0"]).
Definition file_corrupt_1 : list ascii := text_of (map L [
"# Corruption: Radii column has extra element";
"";
"[Original parameters]";
"# This section describes the radial distributions of the parameters:";
"# ""chord lengths"", ""pitch"", ""rake"", ""skew angles"", and ""camber""";
"# at given radial sections.";
"";
"Radial sections =  0.3";
"                   0.4";
"                   0.5";
"                   0.6";
"                   0.7";
"                   0.8";
"                   0.9";
"                   1.0";
"		   1.5";
"";
"Radial distribution of chord =  0.18";
"                                0.2";
"                                0.3";
"                                0.37";
"                                0.41";
"                                0.42";
"                                0.41";
"                                0.1";
"";
"Radial distribution of pitch =  1.4";
"                                1.5";
"                                1.58";
"                                1.6";
"                                1.64";
"                                1.61";
"                                1.5";
"                                1.3";
"";
"Radial distribution of rake =   0.0";
"                                0.005";
"                                0.013";
"                                0.02";
"                                0.03";
"                                0.029";
"                                0.022";
"                                0.01";
"";
"Radial distribution of skew =   3.6";
"                                -4.4";
"                                -7.4";
"                                -7.4";
"                                -5.0";
"                                -1.3";
"                                4.1";
"                                11.4";
"";
"Radial distribution of camber = 0.015";
"                                0.024";
"                                0.029";
"                                0.03";
"                                0.03";
"                                0.028";
"                                0.025";
"                                0.02";
"";
"";
"[Chord B-Spline]";
"# This section describes the B-Spline construction of the RADII -- CHORD curve.";
"";
"# degree of the B-Spline curve";
"spline degree: 3";
"";
"# number of points to be evaluated with the B-Spline interpolation";
"spline npoints: 500";
"";
"# number of the control points";
"number of control points: 5";
"";
"# Y-deformations of the control points.";
"control points Y-deformations =  1.0";
"                                 2.0";
"                                 3.0";
"                                 4.0";
"                                 5.0";
"";
"";
"[Pitch B-Spline]";
"# This section describes the B-Spline construction of the RADII -- PITCH curve.";
"";
"# degree of the B-Spline curve";
"spline degree: 5";
"";
"# number of points to be evaluated with the B-Spline interpolation";
"spline npoints: 400";
"";
"# number of the control points";
"number of control points: 6";
"";
"# Y-deformations of the control points.";
"control points Y-deformations =  1.0";
"                                 2.0";
"                                 3.0";
"                                 4.0";
"                                 5.0";
"                                 6.0";
"";
"";
"[Rake B-Spline]";
"# This section describes the B-Spline construction of the RADII -- RAKE curve.";
"";
"# degree of the B-Spline curve";
"spline degree: 4";
"";
"# number of points to be evaluated with the B-Spline interpolation";
"spline npoints: 300";
"";
"# number of the control points";
"number of control points: 4";
"";
"# Y-deformations of the control points.";
"control points Y-deformations =  1.0";
"                                 2.0";
"                                 3.0";
"                                 4.0";
"";
"";
"[Skew B-Spline]";
"# This section describes the B-Spline construction of the RADII -- SKEW curve.";
"";
"# degree of the B-Spline curve";
"spline degree: 3";
"";
"# number of points to be evaluated with the B-Spline interpolation";
"spline npoints: 200";
"";
"# number of the control points";
"number of control points: 7";
"";
"# Y-deformations of the control points.";
"control points Y-deformations =  7.0";
"                                 6.0";
"                                 5.0";
"                                 4.0";
"                                 3.0";
"                                 2.0";
"                                 1.0";
"";
"";
"[Camber B-Spline]";
"# This section describes the B-Spline construction of the RADII -- CAMBER curve.";
"";
"# degree of the B-Spline curve";
"spline degree: 2";
"";
"# number of points to be evaluated with the B-Spline interpolation";
"spline npoints: 100";
"";
"# number of the control points";
"number of control points: 5";
"";
"# Y-deformations of the control points.";
"control points Y-deformations =  5.0";
"                                 4.0";
"                                 3.0";
"                                 2.0";
"                                 1.0"]).
Definition file_corrupt_2 : list ascii := text_of (map L [
"# Corruption: Chord deformation array is empty";
"";
"[Original parameters]";
"# This section describes the radial distributions of the parameters:";
"# ""chord lengths"", ""pitch"", ""rake"", ""skew angles"", and ""camber""";
"# at given radial sections.";
"";
"Radial sections =  0.3";
"                   0.4";
"                   0.5";
"                   0.6";
"                   0.7";
"                   0.8";
"                   0.9";
"                   1.0";
"";
"Radial distribution of chord =  0.18";
"                                0.2";
"                                0.3";
"                                0.37";
"                                0.41";
"                                0.42";
"                                0.41";
"                                0.1";
"";
"Radial distribution of pitch =  1.4";
"                                1.5";
"                                1.58";
"                                1.6";
"                                1.64";
"                                1.61";
"                                1.5";
"                                1.3";
"";
"Radial distribution of rake =   0.0";
"                                0.005";
"                                0.013";
"                                0.02";
"                                0.03";
"                                0.029";
"                                0.022";
"                                0.01";
"";
"Radial distribution of skew =   3.6";
"                                -4.4";
"                                -7.4";
"                                -7.4";
"                                -5.0";
"                                -1.3";
"                                4.1";
"                                11.4";
"";
"Radial distribution of camber = 0.015";
"                                0.024";
"                                0.029";
"                                0.03";
"                                0.03";
"                                0.028";
"                                0.025";
"                                0.02";
"";
"";
"[Chord B-Spline]";
"# This section describes the B-Spline construction of the RADII -- CHORD curve.";
"";
"# degree of the B-Spline curve";
"spline degree: 3";
"";
"# number of points to be evaluated with the B-Spline interpolation";
"spline npoints: 500";
"";
"# number of the control points";
"number of control points: 5";
"";
"# Y-deformations of the control points.";
"control points Y-deformations =";
"";
"[Pitch B-Spline]";
"# This section describes the B-Spline construction of the RADII -- PITCH curve.";
"";
"# degree of the B-Spline curve";
"spline degree: 5";
"";
"# number of points to be evaluated with the B-Spline interpolation";
"spline npoints: 400";
"";
"# number of the control points";
"number of control points: 6";
"";
"# Y-deformations of the control points.";
"control points Y-deformations =  1.0";
"                                 2.0";
"                                 3.0";
"                                 4.0";
"                                 5.0";
"                                 6.0";
"";
"";
"[Rake B-Spline]";
"# This section describes the B-Spline construction of the RADII -- RAKE curve.";
"";
"# degree of the B-Spline curve";
"spline degree: 4";
"";
"# number of points to be evaluated with the B-Spline interpolation";
"spline npoints: 300";
"";
"# number of the control points";
"number of control points: 4";
"";
"# Y-deformations of the control points.";
"control points Y-deformations =  1.0";
"                                 2.0";
"                                 3.0";
"                                 4.0";
"";
"";
"[Skew B-Spline]";
"# This section describes the B-Spline construction of the RADII -- SKEW curve.";
"";
"# degree of the B-Spline curve";
"spline degree: 3";
"";
"# number of points to be evaluated with the B-Spline interpolation";
"spline npoints: 200";
"";
"# number of the control points";
"number of control points: 7";
"";
"# Y-deformations of the control points.";
"control points Y-deformations =  7.0";
"                                 6.0";
"                                 5.0";
"                                 4.0";
"                                 3.0";
"                                 2.0";
"                                 1.0";
"";
"";
"[Camber B-Spline]";
"# This section describes the B-Spline construction of the RADII -- CAMBER curve.";
"";
"# degree of the B-Spline curve";
"spline degree: 2";
"";
"# number of points to be evaluated with the B-Spline interpolation";
"spline npoints: 100";
"";
"# number of the control points";
"number of control points: 5";
"";
"# Y-deformations of the control points.";
"control points Y-deformations =  5.0";
"                                 4.0";
"                                 3.0";
"                                 2.0";
"                                 1.0"]).
Definition file_corrupt_3 : list ascii := text_of (map L [
"# Corruption: Chord deformation array is not 1D";
"";
"[Original parameters]";
"# This section describes the radial distributions of the parameters:";
"# ""chord lengths"", ""pitch"", ""rake"", ""skew angles"", and ""camber""";
"# at given radial sections.";
"";
"Radial sections =  0.3";
"                   0.4";
"                   0.5";
"                   0.6";
"                   0.7";
"                   0.8";
"                   0.9";
"                   1.0";
"";
"Radial distribution of chord =  0.18";
"                                0.2";
"                                0.3";
"                                0.37";
"                                0.41";
"                                0.42";
"                                0.41";
"                                0.1";
"";
"Radial distribution of pitch =  1.4";
"                                1.5";
"                                1.58";
"                                1.6";
"                                1.64";
"                                1.61";
"                                1.5";
"                                1.3";
"";
"Radial distribution of rake =   0.0";
"                                0.005";
"                                0.013";
"                                0.02";
"                                0.03";
"                                0.029";
"                                0.022";
"                                0.01";
"";
"Radial distribution of skew =   3.6";
"                                -4.4";
"                                -7.4";
"                                -7.4";
"                                -5.0";
"                                -1.3";
"                                4.1";
"                                11.4";
"";
"Radial distribution of camber = 0.015";
"                                0.024";
"                                0.029";
"                                0.03";
"                                0.03";
"                                0.028";
"                                0.025";
"                                0.02";
"";
"";
"[Chord B-Spline]";
"# This section describes the B-Spline construction of the RADII -- CHORD curve.";
"";
"# degree of the B-Spline curve";
"spline degree: 3";
"";
"# number of points to be evaluated with the B-Spline interpolation";
"spline npoints: 500";
"";
"# number of the control points";
"number of control points: 5";
"";
"# Y-deformations of the control points.";
"control points Y-deformations =  1.0 1.5";
"                                 2.0";
"                                 3.0";
"                                 4.0";
"                                 5.0";
"";
"";
"[Pitch B-Spline]";
"# This section describes the B-Spline construction of the RADII -- PITCH curve.";
"";
"# degree of the B-Spline curve";
"spline degree: 5";
"";
"# number of points to be evaluated with the B-Spline interpolation";
"spline npoints: 400";
"";
"# number of the control points";
"number of control points: 6";
"";
"# Y-deformations of the control points.";
"control points Y-deformations =  1.0";
"                                 2.0";
"                                 3.0";
"                                 4.0";
"                                 5.0";
"                                 6.0";
"";
"";
"[Rake B-Spline]";
"# This section describes the B-Spline construction of the RADII -- RAKE curve.";
"";
"# degree of the B-Spline curve";
"spline degree: 4";
"";
"# number of points to be evaluated with the B-Spline interpolation";
"spline npoints: 300";
"";
"# number of the control points";
"number of control points: 4";
"";
"# Y-deformations of the control points.";
"control points Y-deformations =  1.0";
"                                 2.0";
"                                 3.0";
"                                 4.0";
"";
"";
"[Skew B-Spline]";
"# This section describes the B-Spline construction of the RADII -- SKEW curve.";
"";
"# degree of the B-Spline curve";
"spline degree: 3";
"";
"# number of points to be evaluated with the B-Spline interpolation";
"spline npoints: 200";
"";
"# number of the control points";
"number of control points: 7";
"";
"# Y-deformations of the control points.";
"control points Y-deformations =  7.0";
"                                 6.0";
"                                 5.0";
"                                 4.0";
"                                 3.0";
"                                 2.0";
"                                 1.0";
"";
"";
"[Camber B-Spline]";
"# This section describes the B-Spline construction of the RADII -- CAMBER curve.";
"";
"# degree of the B-Spline curve";
"spline degree: 2";
"";
"# number of points to be evaluated with the B-Spline interpolation";
"spline npoints: 100";
"";
"# number of the control points";
"number of control points: 5";
"";
"# Y-deformations of the control points.";
"control points Y-deformations =  5.0";
"                                 4.0";
"                                 3.0";
"                                 2.0";
"                                 1.0"]).
Definition file_corrupt_4 : list ascii := text_of (map L [
"# corruption: Chord nbasis not equal deformations";
"";
"[Original parameters]";
"# This section describes the radial distributions of the parameters:";
"# ""chord lengths"", ""pitch"", ""rake"", ""skew angles"", and ""camber""";
"# at given radial sections.";
"";
"Radial sections =  0.3";
"                   0.4";
"                   0.5";
"                   0.6";
"                   0.7";
"                   0.8";
"                   0.9";
"                   1.0";
"";
"Radial distribution of chord =  0.18";
"                                0.2";
"                                0.3";
"                                0.37";
"                                0.41";
"                                0.42";
"                                0.41";
"                                0.1";
"";
"Radial distribution of pitch =  1.4";
"                                1.5";
"                                1.58";
"                                1.6";
"                                1.64";
"                                1.61";
"                                1.5";
"                                1.3";
"";
"Radial distribution of rake =   0.0";
"                                0.005";
"                                0.013";
"                                0.02";
"                                0.03";
"                                0.029";
"                                0.022";
"                                0.01";
"";
"Radial distribution of skew =   3.6";
"                                -4.4";
"                                -7.4";
"                                -7.4";
"                                -5.0";
"                                -1.3";
"                                4.1";
"                                11.4";
"";
"Radial distribution of camber = 0.015";
"                                0.024";
"                                0.029";
"                                0.03";
"                                0.03";
"                                0.028";
"                                0.025";
"                                0.02";
"";
"";
"[Chord B-Spline]";
"# This section describes the B-Spline construction of the RADII -- CHORD curve.";
"";
"# degree of the B-Spline curve";
"spline degree: 3";
"";
"# number of points to be evaluated with the B-Spline interpolation";
"spline npoints: 500";
"";
"# number of the control points";
"number of control points: 9";
"";
"# Y-deformations of the control points.";
"control points Y-deformations =  1.0";
"                                 2.0";
"                                 3.0";
"                                 4.0";
"                                 5.0";
"";
"";
"[Pitch B-Spline]";
"# This section describes the B-Spline construction of the RADII -- PITCH curve.";
"";
"# degree of the B-Spline curve";
"spline degree: 5";
"";
"# number of points to be evaluated with the B-Spline interpolation";
"spline npoints: 400";
"";
"# number of the control points";
"number of control points: 6";
"";
"# Y-deformations of the control points.";
"control points Y-deformations =  1.0";
"                                 2.0";
"                                 3.0";
"                                 4.0";
"                                 5.0";
"                                 6.0";
"";
"";
"[Rake B-Spline]";
"# This section describes the B-Spline construction of the RADII -- RAKE curve.";
"";
"# degree of the B-Spline curve";
"spline degree: 4";
"";
"# number of points to be evaluated with the B-Spline interpolation";
"spline npoints: 300";
"";
"# number of the control points";
"number of control points: 4";
"";
"# Y-deformations of the control points.";
"control points Y-deformations =  1.0";
"                                 2.0";
"                                 3.0";
"                                 4.0";
"";
"";
"[Skew B-Spline]";
"# This section describes the B-Spline construction of the RADII -- SKEW curve.";
"";
"# degree of the B-Spline curve";
"spline degree: 3";
"";
"# number of points to be evaluated with the B-Spline interpolation";
"spline npoints: 200";
"";
"# number of the control points";
"number of control points: 7";
"";
"# Y-deformations of the control points.";
"control points Y-deformations =  7.0";
"                                 6.0";
"                                 5.0";
"                                 4.0";
"                                 3.0";
"                                 2.0";
"                                 1.0";
"";
"";
"[Camber B-Spline]";
"# This section describes the B-Spline construction of the RADII -- CAMBER curve.";
"";
"# degree of the B-Spline curve";
"spline degree: 2";
"";
"# number of points to be evaluated with the B-Spline interpolation";
"spline npoints: 100";
"";
"# number of the control points";
"number of control points: 5";
"";
"# Y-deformations of the control points.";
"control points Y-deformations =  5.0";
"                                 4.0";
"                                 3.0";
"                                 2.0";
"                                 1.0"]).
Definition file_corrupt_5 : list ascii := text_of (map L [
"# Corruption: a radial section has double values on same line";
"";
"[Original parameters]";
"# This section describes the radial distributions of the parameters:";
"# ""chord lengths"", ""pitch"", ""rake"", ""skew angles"", and ""camber""";
"# at given radial sections.";
"";
"Radial sections =  0.3 0.6";
"                   0.4";
"                   0.5";
"                   0.6";
"                   0.7";
"                   0.8";
"                   0.9";
"                   1.0";
"";
"Radial distribution of chord =  0.18";
"                                0.2";
"                                0.3";
"                                0.37";
"                                0.41";
"                                0.42";
"                                0.41";
"                                0.1";
"";
"Radial distribution of pitch =  1.4";
"                                1.5";
"                                1.58";
"                                1.6";
"                                1.64";
"                                1.61";
"                                1.5";
"                                1.3";
"";
"Radial distribution of rake =   0.0";
"                                0.005";
"                                0.013";
"                                0.02";
"                                0.03";
"                                0.029";
"                                0.022";
"                                0.01";
"";
"Radial distribution of skew =   3.6";
"                                -4.4";
"                                -7.4";
"                                -7.4";
"                                -5.0";
"                                -1.3";
"                                4.1";
"                                11.4";
"";
"Radial distribution of camber = 0.015";
"                                0.024";
"                                0.029";
"                                0.03";
"                                0.03";
"                                0.028";
"                                0.025";
"                                0.02";
"";
"";
"[Chord B-Spline]";
"# This section describes the B-Spline construction of the RADII -- CHORD curve.";
"";
"# degree of the B-Spline curve";
"spline degree: 3";
"";
"# number of points to be evaluated with the B-Spline interpolation";
"spline npoints: 500";
"";
"# number of the control points";
"number of control points: 5";
"";
"# Y-deformations of the control points.";
"control points Y-deformations =  1.0";
"                                 2.0";
"                                 3.0";
"                                 4.0";
"                                 5.0";
"";
"";
"[Pitch B-Spline]";
"# This section describes the B-Spline construction of the RADII -- PITCH curve.";
"";
"# degree of the B-Spline curve";
"spline degree: 5";
"";
"# number of points to be evaluated with the B-Spline interpolation";
"spline npoints: 400";
"";
"# number of the control points";
"number of control points: 6";
"";
"# Y-deformations of the control points.";
"control points Y-deformations =  1.0";
"                                 2.0";
"                                 3.0";
"                                 4.0";
"                                 5.0";
"                                 6.0";
"";
"";
"[Rake B-Spline]";
"# This section describes the B-Spline construction of the RADII -- RAKE curve.";
"";
"# degree of the B-Spline curve";
"spline degree: 4";
"";
"# number of points to be evaluated with the B-Spline interpolation";
"spline npoints: 300";
"";
"# number of the control points";
"number of control points: 4";
"";
"# Y-deformations of the control points.";
"control points Y-deformations =  1.0";
"                                 2.0";
"                                 3.0";
"                                 4.0";
"";
"";
"[Skew B-Spline]";
"# This section describes the B-Spline construction of the RADII -- SKEW curve.";
"";
"# degree of the B-Spline curve";
"spline degree: 3";
"";
"# number of points to be evaluated with the B-Spline interpolation";
"spline npoints: 200";
"";
"# number of the control points";
"number of control points: 7";
"";
"# Y-deformations of the control points.";
"control points Y-deformations =  7.0";
"                                 6.0";
"                                 5.0";
"                                 4.0";
"                                 3.0";
"                                 2.0";
"                                 1.0";
"";
"";
"[Camber B-Spline]";
"# This section describes the B-Spline construction of the RADII -- CAMBER curve.";
"";
"# degree of the B-Spline curve";
"spline degree: 2";
"";
"# number of points to be evaluated with the B-Spline interpolation";
"spline npoints: 100";
"";
"# number of the control points";
"number of control points: 5";
"";
"# Y-deformations of the control points.";
"control points Y-deformations =  5.0";
"                                 4.0";
"                                 3.0";
"                                 2.0";
"                                 1.0"]).
Definition file_corrupt_6 : list ascii := text_of (map L [
"# Corruption: Radial distribution of chord is not 1D";
"";
"[Original parameters]";
"# This section describes the radial distributions of the parameters:";
"# ""chord lengths"", ""pitch"", ""rake"", ""skew angles"", and ""camber""";
"# at given radial sections.";
"";
"Radial sections =  0.3";
"                   0.4";
"                   0.5";
"                   0.6";
"                   0.7";
"                   0.8";
"                   0.9";
"                   1.0";
"";
"Radial distribution of chord =  0.18 0.1";
"                                0.2";
"                                0.3";
"                                0.37";
"                                0.41";
"                                0.42";
"                                0.41";
"                                0.1";
"";
"Radial distribution of pitch =  1.4";
"                                1.5";
"                                1.58";
"                                1.6";
"                                1.64";
"                                1.61";
"                                1.5";
"                                1.3";
"";
"Radial distribution of rake =   0.0";
"                                0.005";
"                                0.013";
"                                0.02";
"                                0.03";
"                                0.029";
"                                0.022";
"                                0.01";
"";
"Radial distribution of skew =   3.6";
"                                -4.4";
"                                -7.4";
"                                -7.4";
"                                -5.0";
"                                -1.3";
"                                4.1";
"                                11.4";
"";
"Radial distribution of camber = 0.015";
"                                0.024";
"                                0.029";
"                                0.03";
"                                0.03";
"                                0.028";
"                                0.025";
"                                0.02";
"";
"";
"[Chord B-Spline]";
"# This section describes the B-Spline construction of the RADII -- CHORD curve.";
"";
"# degree of the B-Spline curve";
"spline degree: 3";
"";
"# number of points to be evaluated with the B-Spline interpolation";
"spline npoints: 500";
"";
"# number of the control points";
"number of control points: 5";
"";
"# Y-deformations of the control points.";
"control points Y-deformations =  1.0";
"                                 2.0";
"                                 3.0";
"                                 4.0";
"                                 5.0";
"";
"";
"[Pitch B-Spline]";
"# This section describes the B-Spline construction of the RADII -- PITCH curve.";
"";
"# degree of the B-Spline curve";
"spline degree: 5";
"";
"# number of points to be evaluated with the B-Spline interpolation";
"spline npoints: 400";
"";
"# number of the control points";
"number of control points: 6";
"";
"# Y-deformations of the control points.";
"control points Y-deformations =  1.0";
"                                 2.0";
"                                 3.0";
"                                 4.0";
"                                 5.0";
"                                 6.0";
"";
"";
"[Rake B-Spline]";
"# This section describes the B-Spline construction of the RADII -- RAKE curve.";
"";
"# degree of the B-Spline curve";
"spline degree: 4";
"";
"# number of points to be evaluated with the B-Spline interpolation";
"spline npoints: 300";
"";
"# number of the control points";
"number of control points: 4";
"";
"# Y-deformations of the control points.";
"control points Y-deformations =  1.0";
"                                 2.0";
"                                 3.0";
"                                 4.0";
"";
"";
"[Skew B-Spline]";
"# This section describes the B-Spline construction of the RADII -- SKEW curve.";
"";
"# degree of the B-Spline curve";
"spline degree: 3";
"";
"# number of points to be evaluated with the B-Spline interpolation";
"spline npoints: 200";
"";
"# number of the control points";
"number of control points: 7";
"";
"# Y-deformations of the control points.";
"control points Y-deformations =  7.0";
"                                 6.0";
"                                 5.0";
"                                 4.0";
"                                 3.0";
"                                 2.0";
"                                 1.0";
"";
"";
"[Camber B-Spline]";
"# This section describes the B-Spline construction of the RADII -- CAMBER curve.";
"";
"# degree of the B-Spline curve";
"spline degree: 2";
"";
"# number of points to be evaluated with the B-Spline interpolation";
"spline npoints: 100";
"";
"# number of the control points";
"number of control points: 5";
"";
"# Y-deformations of the control points.";
"control points Y-deformations =  5.0";
"                                 4.0";
"                                 3.0";
"                                 2.0";
"                                 1.0"]).
Definition file_default : list ascii := text_of (map L [
"";
"[Original parameters]";
"# This section describes the radial distributions of the parameters:";
"# ""chord lengths"", ""pitch"", ""rake"", ""skew angles"", and ""camber""";
"# at given radial sections.";
"";
"Radial sections =  0.3";
"                   0.4";
"                   0.5";
"                   0.6000000000000001";
"                   0.7000000000000002";
"                   0.8000000000000003";
"                   0.9000000000000001";
"                   1.0000000000000002";
"";
"Radial distribution of chord =  0.0";
"                                0.0";
"                                0.0";
"                                0.0";
"                                0.0";
"                                0.0";
"                                0.0";
"                                0.0";
"";
"Radial distribution of pitch =  0.0";
"                                0.0";
"                                0.0";
"                                0.0";
"                                0.0";
"                                0.0";
"                                0.0";
"                                0.0";
"";
"Radial distribution of rake =   0.0";
"                                0.0";
"                                0.0";
"                                0.0";
"                                0.0";
"                                0.0";
"                                0.0";
"                                0.0";
"";
"Radial distribution of skew =   0.0";
"                                0.0";
"                                0.0";
"                                0.0";
"                                0.0";
"                                0.0";
"                                0.0";
"                                0.0";
"";
"Radial distribution of camber = 0.0";
"                                0.0";
"                                0.0";
"                                0.0";
"                                0.0";
"                                0.0";
"                                0.0";
"                                0.0";
"";
"";
"[Chord B-Spline]";
"# This section describes the B-Spline construction of the RADII -- CHORD curve.";
"";
"# degree of the B-Spline curve";
"spline degree: 3";
"";
"# number of points to be evaluated with the B-Spline interpolation";
"spline npoints: 500";
"";
"# number of the control points";
"number of control points: 10";
"";
"# Y-deformations of the control points.";
"control points Y-deformations =  0.0";
"                                 0.0";
"                                 0.0";
"                                 0.0";
"                                 0.0";
"                                 0.0";
"                                 0.0";
"                                 0.0";
"                                 0.0";
"                                 0.0";
"";
"";
"[Pitch B-Spline]";
"# This section describes the B-Spline construction of the RADII -- PITCH curve.";
"";
"# degree of the B-Spline curve";
"spline degree: 3";
"";
"# number of points to be evaluated with the B-Spline interpolation";
"spline npoints: 500";
"";
"# number of the control points";
"number of control points: 10";
"";
"# Y-deformations of the control points.";
"control points Y-deformations =  0.0";
"                                 0.0";
"                                 0.0";
"                                 0.0";
"                                 0.0";
"                                 0.0";
"                                 0.0";
"                                 0.0";
"                                 0.0";
"                                 0.0";
"";
"";
"[Rake B-Spline]";
"# This section describes the B-Spline construction of the RADII -- RAKE curve.";
"";
"# degree of the B-Spline curve";
"spline degree: 3";
"";
"# number of points to be evaluated with the B-Spline interpolation";
"spline npoints: 500";
"";
"# number of the control points";
"number of control points: 10";
"";
"# Y-deformations of the control points.";
"control points Y-deformations =  0.0";
"                                 0.0";
"                                 0.0";
"                                 0.0";
"                                 0.0";
"                                 0.0";
"                                 0.0";
"                                 0.0";
"                                 0.0";
"                                 0.0";
"";
"";
"[Skew B-Spline]";
"# This section describes the B-Spline construction of the RADII -- SKEW curve.";
"";
"# degree of the B-Spline curve";
"spline degree: 3";
"";
"# number of points to be evaluated with the B-Spline interpolation";
"spline npoints: 500";
"";
"# number of the control points";
"number of control points: 10";
"";
"# Y-deformations of the control points.";
"control points Y-deformations =  0.0";
"                                 0.0";
"                                 0.0";
"                                 0.0";
"                                 0.0";
"                                 0.0";
"                                 0.0";
"                                 0.0";
"                                 0.0";
"                                 0.0";
"";
"";
"[Camber B-Spline]";
"# This section describes the B-Spline construction of the RADII -- CAMBER curve.";
"";
"# degree of the B-Spline curve";
"spline degree: 3";
"";
"# number of points to be evaluated with the B-Spline interpolation";
"spline npoints: 500";
"";
"# number of the control points";
"number of control points: 10";
"";
"# Y-deformations of the control points.";
"control points Y-deformations =  0.0";
"                                 0.0";
"                                 0.0";
"                                 0.0";
"                                 0.0";
"                                 0.0";
"                                 0.0";
"                                 0.0";
"                                 0.0";
"                                 0.0"]).
Definition file_pptc : list ascii := text_of (map L [
"";
"[Original parameters]";
"# This section describes the radial distributions of the parameters:";
"# ""chord lengths"", ""pitch"", ""rake"", ""skew angles"", and ""camber""";
"# at given radial sections.";
"";
"Radial sections =  0.3";
"                   0.35";
"                   0.4";
"                   0.5";
"                   0.6";
"                   0.7";
"                   0.8";
"                   0.85";
"                   0.9";
"                   0.95";
"                   0.975";
"                   1.0";
"";
"Radial distribution of chord =  0.18";
"                                0.225";
"                                0.26168";
"                                0.325";
"                                0.37668";
"                                0.41668";
"                                0.42832";
"                                0.42616";
"                                0.41668";
"                                0.37668";
"                                0.31468";
"                                0.1";
"";
"Radial distribution of pitch =  1.4";
"                                1.455";
"                                1.505";
"                                1.578";
"                                1.62";
"                                1.635";
"                                1.614";
"                                1.582";
"                                1.531";
"                                1.458";
"                                1.411";
"                                1.355";
"";
"Radial distribution of rake =   0.0";
"                                0.002";
"                                0.005";
"                                0.0134";
"                                0.0235";
"                                0.03";
"                                0.0295";
"                                0.0265";
"                                0.0218";
"                                0.016132";
"                                0.0132";
"                                0.01";
"";
"Radial distribution of skew =   3.6262795";
"                                -1.188323";
"                                -4.4654502";
"                                -7.440779";
"                                -7.3840979";
"                                -5.0367916";
"                                -1.3257914";
"                                1.0856404";
"                                4.1448947";
"                                7.697235";
"                                9.5368917";
"                                11.397609";
"";
"Radial distribution of camber = 0.015";
"                                0.02";
"                                0.02399878";
"                                0.02899692";
"                                0.03012637";
"                                0.02969185";
"                                0.02850205";
"                                0.02784869";
"                                0.02565038";
"                                0.02329829";
"                                0.02179992";
"                                0.02";
"";
"";
"[Chord B-Spline]";
"# This section describes the B-Spline construction of the RADII -- CHORD curve.";
"";
"# degree of the B-Spline curve";
"spline degree: 3";
"";
"# number of points to be evaluated with the B-Spline interpolation";
"spline npoints: 500";
"";
"# number of the control points";
"number of control points: 10";
"";
"# Y-deformations of the control points.";
"control points Y-deformations =  0.0";
"                                 0.0";
"                                 0.0";
"                                 0.0";
"                                 0.0";
"                                 0.0";
"                                 0.0";
"                                 0.0";
"                                 0.0";
"                                 0.0";
"";
"";
"[Pitch B-Spline]";
"# This section describes the B-Spline construction of the RADII -- PITCH curve.";
"";
"# degree of the B-Spline curve";
"spline degree: 3";
"";
"# number of points to be evaluated with the B-Spline interpolation";
"spline npoints: 500";
"";
"# number of the control points";
"number of control points: 10";
"";
"# Y-deformations of the control points.";
"control points Y-deformations =  0.0";
"                                 0.0";
"                                 0.0";
"                                 0.0";
"                                 0.0";
"                                 0.0";
"                                 0.0";
"                                 0.0";
"                                 0.0";
"                                 0.0";
"";
"";
"[Rake B-Spline]";
"# This section describes the B-Spline construction of the RADII -- RAKE curve.";
"";
"# degree of the B-Spline curve";
"spline degree: 3";
"";
"# number of points to be evaluated with the B-Spline interpolation";
"spline npoints: 500";
"";
"# number of the control points";
"number of control points: 10";
"";
"# Y-deformations of the control points.";
"control points Y-deformations =  0.0";
"                                 0.0";
"                                 0.0";
"                                 0.0";
"                                 0.0";
"                                 0.0";
"                                 0.0";
"                                 0.0";
"                                 0.0";
"                                 0.0";
"";
"";
"[Skew B-Spline]";
"# This section describes the B-Spline construction of the RADII -- SKEW curve.";
"";
"# degree of the B-Spline curve";
"spline degree: 3";
"";
"# number of points to be evaluated with the B-Spline interpolation";
"spline npoints: 500";
"";
"# number of the control points";
"number of control points: 10";
"";
"# Y-deformations of the control points.";
"control points Y-deformations =  0.0";
"                                 0.0";
"                                 0.0";
"                                 0.0";
"                                 0.0";
"                                 0.0";
"                                 0.0";
"                                 0.0";
"                                 0.0";
"                                 0.0";
"";
"";
"[Camber B-Spline]";
"# This section describes the B-Spline construction of the RADII -- CAMBER curve.";
"";
"# degree of the B-Spline curve";
"spline degree: 3";
"";
"# number of points to be evaluated with the B-Spline interpolation";
"spline npoints: 500";
"";
"# number of the control points";
"number of control points: 10";
"";
"# Y-deformations of the control points.";
"control points Y-deformations =  0.0";
"                                 0.0";
"                                 0.0";
"                                 0.0";
"                                 0.0";
"                                 0.0";
"                                 0.0";
"                                 0.0";
"                                 0.0";
"                                 0.0"]).
