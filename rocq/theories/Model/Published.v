(** Model of the published curve database (src/pystrata/data/published_curves.toml) and of
    its readers (src/pystrata/site.py:45-69, 115-145 and 308-327).  The numbers of the file
    are exact decimals here. *)
From Coq Require Import String QArith Qreals.
From Verif Require Import Common Model.Curve Model.Layer.
Local Open Scope R_scope.

Record table := mkTable { t_strains : list Q; t_values : list Q }.
Record model := mkModel { m_name : string; m_mod_reduc : option table; m_damping : option table }.

(** data/published_curves.toml:20-1565, in order. *)
Definition published : list model := ([
  mkModel "Vucetic & Dobry (91), PI=0"
    (Some (mkTable
      [0.000001; 0.00000316; 0.00001; 0.0000316; 0.0001; 0.000316; 0.001; 0.00316; 0.01]
      [1; 1; 0.96; 0.88; 0.7; 0.47; 0.26; 0.11; 0.03]))
    (Some (mkTable
      [0.000001; 0.00000316; 0.00001; 0.0000316; 0.0001; 0.000316; 0.001; 0.00316; 0.01]
      [0.01; 0.01; 0.01; 0.03; 0.054; 0.098; 0.15; 0.203; 0.24]));
  mkModel "Vucetic & Dobry (91), PI=15"
    (Some (mkTable
      [0.000001; 0.00000316; 0.00001; 0.0000316; 0.0001; 0.000316; 0.001; 0.00316; 0.01]
      [1; 1; 0.99; 0.94; 0.81; 0.64; 0.41; 0.22; 0.1]))
    (Some (mkTable
      [0.000001; 0.00000316; 0.00001; 0.0000316; 0.0001; 0.000316; 0.001; 0.00316; 0.01]
      [0.01; 0.01; 0.01; 0.026; 0.045; 0.075; 0.116; 0.16; 0.2]));
  mkModel "Vucetic & Dobry (91), PI=30"
    (Some (mkTable
      [0.000001; 0.00000316; 0.00001; 0.0000316; 0.0001; 0.000316; 0.001; 0.00316; 0.01]
      [1; 1; 1; 0.98; 0.9; 0.75; 0.53; 0.35; 0.17]))
    (Some (mkTable
      [0.000001; 0.00000316; 0.00001; 0.0000316; 0.0001; 0.000316; 0.001; 0.00316; 0.01]
      [0.01; 0.01; 0.01; 0.021; 0.038; 0.059; 0.088; 0.125; 0.169]));
  mkModel "Vucetic & Dobry (91), PI=50"
    (Some (mkTable
      [0.000001; 0.00000316; 0.00001; 0.0000316; 0.0001; 0.000316; 0.001; 0.00316; 0.01]
      [1; 1; 1; 1; 0.95; 0.84; 0.67; 0.47; 0.25]))
    (Some (mkTable
      [0.000001; 0.00000316; 0.00001; 0.0000316; 0.0001; 0.000316; 0.001; 0.00316; 0.01]
      [0.01; 0.01; 0.01; 0.018; 0.029; 0.043; 0.062; 0.095; 0.135]));
  mkModel "Vucetic & Dobry (91), PI=100"
    (Some (mkTable
      [0.000001; 0.00000316; 0.00001; 0.0000316; 0.0001; 0.000316; 0.001; 0.00316; 0.01]
      [1; 1; 1; 1; 0.98; 0.92; 0.81; 0.63; 0.37]))
    (Some (mkTable
      [0.000001; 0.00000316; 0.00001; 0.0000316; 0.0001; 0.000316; 0.001; 0.00316; 0.01]
      [0.01; 0.01; 0.01; 0.015; 0.02; 0.029; 0.041; 0.065; 0.098]));
  mkModel "Vucetic & Dobry (91), PI=200"
    (Some (mkTable
      [0.000001; 0.00000316; 0.00001; 0.0000316; 0.0001; 0.000316; 0.001; 0.00316; 0.01]
      [1; 1; 1; 1; 1; 0.96; 0.89; 0.75; 0.53]))
    (Some (mkTable
      [0.000001; 0.00000316; 0.00001; 0.0000316; 0.0001; 0.000316; 0.001; 0.00316; 0.01]
      [0.01; 0.01; 0.01; 0.013; 0.016; 0.021; 0.03; 0.048; 0.081]));
  mkModel "EPRI (93), PI=10"
    (Some (mkTable
      [0.000001; 0.000001778; 0.000003162; 0.000005623; 0.00001; 0.00001778; 0.00003162; 0.00005623; 0.0001; 0.0001778; 0.0003162; 0.0005623; 0.001; 0.001778; 0.003162; 0.005623; 0.01]
      [1; 1; 0.998; 0.993; 0.977; 0.951; 0.905; 0.839; 0.746; 0.626; 0.495; 0.364; 0.244; 0.158; 0.092; 0.052; 0.032]))
    (Some (mkTable
      [0.000001; 0.000001778; 0.000003162; 0.000005623; 0.00001; 0.00001778; 0.00003162; 0.00005623; 0.0001; 0.0001778; 0.0003162; 0.0005623; 0.001; 0.001778; 0.003162; 0.005623; 0.01]
      [0.01; 0.00991; 0.01054; 0.01122; 0.01337; 0.01639; 0.0204; 0.0289; 0.03981; 0.05585; 0.07733; 0.10388; 0.13339; 0.16412; 0.19099; 0.20336; 0.19936]));
  mkModel "EPRI (93), PI=30"
    (Some (mkTable
      [0.000001; 0.000001778; 0.000003162; 0.000005623; 0.00001; 0.00001778; 0.00003162; 0.00005623; 0.0001; 0.0001778; 0.0003162; 0.0005623; 0.001; 0.001778; 0.003162; 0.005623; 0.01]
      [1; 1; 1; 1; 0.997; 0.99; 0.968; 0.931; 0.872; 0.784; 0.671; 0.543; 0.409; 0.288; 0.188; 0.117; 0.074]))
    (Some (mkTable
      [0.000001; 0.000001778; 0.000003162; 0.000005623; 0.00001; 0.00001778; 0.00003162; 0.00005623; 0.0001; 0.0001778; 0.0003162; 0.0005623; 0.001; 0.001778; 0.003162; 0.005623; 0.01]
      [0.01428; 0.0142; 0.01423; 0.01513; 0.016; 0.01743; 0.02026; 0.0248; 0.03095; 0.04113; 0.05643; 0.07744; 0.10295; 0.13199; 0.16085; 0.18394; 0.18956]));
  mkModel "EPRI (93), PI=50"
    (Some (mkTable
      [0.000001; 0.000001778; 0.000003162; 0.000005623; 0.00001; 0.00001778; 0.00003162; 0.00005623; 0.0001; 0.0001778; 0.0003162; 0.0005623; 0.001; 0.001778; 0.003162; 0.005623; 0.01]
      [1; 1; 1; 1; 1; 1; 0.996; 0.981; 0.951; 0.897; 0.821; 0.714; 0.585; 0.451; 0.33; 0.224; 0.153]))
    (Some (mkTable
      [0.000001; 0.000001778; 0.000003162; 0.000005623; 0.00001; 0.00001778; 0.00003162; 0.00005623; 0.0001; 0.0001778; 0.0003162; 0.0005623; 0.001; 0.001778; 0.003162; 0.005623; 0.01]
      [0.01928; 0.0192; 0.01911; 0.01973; 0.01965; 0.02037; 0.02142; 0.02348; 0.02773; 0.03346; 0.0433; 0.05778; 0.07759; 0.10214; 0.12931; 0.15617; 0.17429]));
  mkModel "EPRI (93), PI=70"
    (Some (mkTable
      [0.000001; 0.000001778; 0.000003162; 0.000005623; 0.00001; 0.00001778; 0.00003162; 0.00005623; 0.0001; 0.0001778; 0.0003162; 0.0005623; 0.001; 0.001778; 0.003162; 0.005623; 0.01]
      [1; 1; 1; 1; 1; 1; 1; 1; 0.996; 0.976; 0.937; 0.877; 0.785; 0.671; 0.536; 0.408; 0.299]))
    (Some (mkTable
      [0.000001; 0.000001778; 0.000003162; 0.000005623; 0.00001; 0.00001778; 0.00003162; 0.00005623; 0.0001; 0.0001778; 0.0003162; 0.0005623; 0.001; 0.001778; 0.003162; 0.005623; 0.01]
      [0.025; 0.02491; 0.02411; 0.02402; 0.02393; 0.02411; 0.02446; 0.02545; 0.02662; 0.02937; 0.03365; 0.04119; 0.05279; 0.06966; 0.09111; 0.11421; 0.13704]));
  mkModel "EPRI (93), 0-20 ft"
    (Some (mkTable
      [0.000001; 0.000001778; 0.000003162; 0.000005623; 0.00001; 0.00001778; 0.00003162; 0.00005623; 0.0001; 0.0001778; 0.0003162; 0.0005623; 0.001; 0.001778; 0.003162; 0.005623; 0.01]
      [1; 1; 1; 0.998; 0.986; 0.96; 0.92; 0.851; 0.759; 0.642; 0.515; 0.392; 0.278; 0.189; 0.121; 0.073; 0.043]))
    (Some (mkTable
      [0.000001; 0.000001778; 0.000003162; 0.000005623; 0.00001; 0.00001778; 0.00003162; 0.00005623; 0.0001; 0.0001778; 0.0003162; 0.0005623; 0.001; 0.001778; 0.003162; 0.005623; 0.01]
      [0.01429; 0.01476; 0.01536; 0.01602; 0.01879; 0.02193; 0.02819; 0.03724; 0.05066; 0.0694; 0.09346; 0.12201; 0.15443; 0.18703; 0.21704; 0.24541; 0.27217]));
  mkModel "EPRI (93), 20-50 ft"
    (Some (mkTable
      [0.000001; 0.000001778; 0.000003162; 0.000005623; 0.00001; 0.00001778; 0.00003162; 0.00005623; 0.0001; 0.0001778; 0.0003162; 0.0005623; 0.001; 0.001778; 0.003162; 0.005623; 0.01]
      [1; 1; 1; 0.999; 0.993; 0.979; 0.952; 0.903; 0.83; 0.733; 0.617; 0.488; 0.366; 0.258; 0.173; 0.108; 0.066]))
    (Some (mkTable
      [0.000001; 0.000001778; 0.000003162; 0.000005623; 0.00001; 0.00001778; 0.00003162; 0.00005623; 0.0001; 0.0001778; 0.0003162; 0.0005623; 0.001; 0.001778; 0.003162; 0.005623; 0.01]
      [0.01142; 0.01196; 0.0125; 0.01304; 0.01469; 0.0167; 0.02074; 0.02658; 0.03622; 0.05066; 0.07069; 0.09569; 0.125; 0.15688; 0.19004; 0.22022; 0.24699]));
  mkModel "EPRI (93), 50-120 ft"
    (Some (mkTable
      [0.000001; 0.000001778; 0.000003162; 0.000005623; 0.00001; 0.00001778; 0.00003162; 0.00005623; 0.0001; 0.0001778; 0.0003162; 0.0005623; 0.001; 0.001778; 0.003162; 0.005623; 0.01]
      [1; 1; 1; 0.999; 0.998; 0.988; 0.97; 0.934; 0.878; 0.797; 0.691; 0.567; 0.444; 0.328; 0.225; 0.145; 0.092]))
    (Some (mkTable
      [0.000001; 0.000001778; 0.000003162; 0.000005623; 0.00001; 0.00001778; 0.00003162; 0.00005623; 0.0001; 0.0001778; 0.0003162; 0.0005623; 0.001; 0.001778; 0.003162; 0.005623; 0.01]
      [0.01; 0.00982; 0.00978; 0.01122; 0.01165; 0.01371; 0.0161; 0.02046; 0.0283; 0.03901; 0.05493; 0.07662; 0.10381; 0.13383; 0.16643; 0.19766; 0.2258]));
  mkModel "EPRI (93), 120-250 ft"
    (Some (mkTable
      [0.000001; 0.000001778; 0.000003162; 0.000005623; 0.00001; 0.00001778; 0.00003162; 0.00005623; 0.0001; 0.0001778; 0.0003162; 0.0005623; 0.001; 0.001778; 0.003162; 0.005623; 0.01]
      [1; 1; 1; 0.999; 0.999; 0.994; 0.979; 0.954; 0.909; 0.84; 0.747; 0.631; 0.507; 0.384; 0.274; 0.182; 0.118]))
    (Some (mkTable
      [0.000001; 0.000001778; 0.000003162; 0.000005623; 0.00001; 0.00001778; 0.00003162; 0.00005623; 0.0001; 0.0001778; 0.0003162; 0.0005623; 0.001; 0.001778; 0.003162; 0.005623; 0.01]
      [0.00857; 0.00839; 0.00821; 0.0088; 0.01006; 0.01125; 0.01341; 0.01629; 0.02198; 0.03131; 0.0446; 0.06281; 0.08686; 0.11573; 0.1477; 0.17879; 0.20906]));
  mkModel "EPRI (93), 250-500 ft"
    (Some (mkTable
      [0.000001; 0.000001778; 0.000003162; 0.000005623; 0.00001; 0.00001778; 0.00003162; 0.00005623; 0.0001; 0.0001778; 0.0003162; 0.0005623; 0.001; 0.001778; 0.003162; 0.005623; 0.01]
      [1; 1; 1; 0.999; 0.999; 0.999; 0.986; 0.968; 0.934; 0.879; 0.799; 0.696; 0.575; 0.449; 0.332; 0.23; 0.148]))
    (Some (mkTable
      [0.000001; 0.000001778; 0.000003162; 0.000005623; 0.00001; 0.00001778; 0.00003162; 0.00005623; 0.0001; 0.0001778; 0.0003162; 0.0005623; 0.001; 0.001778; 0.003162; 0.005623; 0.01]
      [0.00786; 0.00792; 0.00799; 0.00811; 0.00867; 0.0095; 0.01081; 0.01344; 0.01774; 0.02515; 0.0352; 0.05077; 0.07206; 0.09853; 0.12839; 0.15972; 0.19072]));
  mkModel "EPRI (93), 500-1000 ft"
    (Some (mkTable
      [0.000001; 0.000001778; 0.000003162; 0.000005623; 0.00001; 0.00001778; 0.00003162; 0.00005623; 0.0001; 0.0001778; 0.0003162; 0.0005623; 0.001; 0.001778; 0.003162; 0.005623; 0.01]
      [1; 1; 1; 1; 1; 1; 0.995; 0.982; 0.96; 0.915; 0.85; 0.765; 0.66; 0.532; 0.41; 0.297; 0.2]))
    (Some (mkTable
      [0.000001; 0.000001778; 0.000003162; 0.000005623; 0.00001; 0.00001778; 0.00003162; 0.00005623; 0.0001; 0.0001778; 0.0003162; 0.0005623; 0.001; 0.001778; 0.003162; 0.005623; 0.01]
      [0.00492; 0.00554; 0.00607; 0.00589; 0.00643; 0.00696; 0.00772; 0.00983; 0.01234; 0.01735; 0.02562; 0.03696; 0.05408; 0.07617; 0.10428; 0.13524; 0.16459]));
  mkModel "GEI (83), 0-50 ft"
    (Some (mkTable
      [0.000001; 0.000003162; 0.00001; 0.00003162; 0.0001; 0.0003162; 0.001; 0.003162; 0.01; 0.03162; 0.1]
      [1; 0.99; 0.98; 0.91; 0.78; 0.56; 0.33; 0.16; 0.065; 0.04; 0.04]))
    (Some (mkTable
      [0.000001; 0.000003162; 0.00001; 0.00003162; 0.0001; 0.0003162; 0.001; 0.003162; 0.01; 0.03162; 0.1]
      [0.015; 0.015; 0.015; 0.0175; 0.0385; 0.0775; 0.131; 0.1875; 0.23; 0.26; 0.26]));
  mkModel "GEI (83), 50-100 ft"
    (Some (mkTable
      [0.000001; 0.000003162; 0.00001; 0.00003162; 0.0001; 0.0003162; 0.001; 0.003162; 0.01; 0.03162; 0.1]
      [1; 0.99; 0.98; 0.935; 0.816; 0.61; 0.36; 0.175; 0.065; 0.04; 0.04]))
    (Some (mkTable
      [0.000001; 0.000003162; 0.00001; 0.00003162; 0.0001; 0.0003162; 0.001; 0.003162; 0.01; 0.03162; 0.1]
      [0.015; 0.015; 0.015; 0.016; 0.0315; 0.065; 0.1175; 0.1775; 0.225; 0.256; 0.256]));
  mkModel "GEI (83), 100-250 ft"
    (Some (mkTable
      [0.000001; 0.000003162; 0.00001; 0.00003162; 0.0001; 0.0003162; 0.001; 0.003162; 0.01; 0.03162; 0.1]
      [1; 0.99; 0.98; 0.947; 0.852; 0.67; 0.425; 0.2; 0.065; 0.04; 0.04]))
    (Some (mkTable
      [0.000001; 0.000003162; 0.00001; 0.00003162; 0.0001; 0.0003162; 0.001; 0.003162; 0.01; 0.03162; 0.1]
      [0.015; 0.015; 0.015; 0.015; 0.025; 0.05; 0.1; 0.165; 0.22; 0.254; 0.254]));
  mkModel "GEI (83), 250-500 ft"
    (Some (mkTable
      [0.000001; 0.000003162; 0.00001; 0.00003162; 0.0001; 0.0003162; 0.001; 0.003162; 0.01; 0.03162; 0.1]
      [1; 0.995; 0.99; 0.965; 0.89; 0.725; 0.495; 0.24; 0.08; 0.04; 0.04]))
    (Some (mkTable
      [0.000001; 0.000003162; 0.00001; 0.00003162; 0.0001; 0.0003162; 0.001; 0.003162; 0.01; 0.03162; 0.1]
      [0.015; 0.015; 0.015; 0.015; 0.021; 0.0375; 0.0825; 0.1475; 0.205; 0.2425; 0.2425]));
  mkModel "GEI (83), >500 ft"
    (Some (mkTable
      [0.000001; 0.000003162; 0.00001; 0.00003162; 0.0001; 0.0003162; 0.001; 0.003162; 0.01; 0.03162; 0.1]
      [1; 1; 1; 0.985; 0.925; 0.775; 0.565; 0.3; 0.1; 0.04; 0.04]))
    (Some (mkTable
      [0.000001; 0.000003162; 0.00001; 0.00003162; 0.0001; 0.0003162; 0.001; 0.003162; 0.01; 0.03162; 0.1]
      [0.015; 0.015; 0.015; 0.015; 0.0175; 0.025; 0.0625; 0.13; 0.19; 0.231; 0.231]));
  mkModel "GeoMatrix (1990), 0-50 ft"
    (Some (mkTable
      [0.000001; 0.000003162; 0.00001; 0.00003162; 0.0001; 0.0003162; 0.001; 0.003162; 0.01; 0.03162; 0.1]
      [1; 0.991; 0.985; 0.943; 0.854; 0.688; 0.454; 0.259; 0.1; 0.052; 0.052]))
    (Some (mkTable
      [0.000001; 0.000003162; 0.00001; 0.00003162; 0.0001; 0.0003162; 0.001; 0.003162; 0.01; 0.03162; 0.1]
      [0.021; 0.021; 0.025; 0.025; 0.0373; 0.0656; 0.1123; 0.1598; 0.2109; 0.2411; 0.2411]));
  mkModel "GeoMatrix (1990), 50-150 ft"
    (Some (mkTable
      [0.000001; 0.000003162; 0.00001; 0.00003162; 0.0001; 0.0003162; 0.001; 0.003162; 0.01; 0.03162; 0.1]
      [1; 0.998; 0.999; 0.975; 0.9; 0.767; 0.536; 0.319; 0.134; 0.052; 0.052]))
    (Some (mkTable
      [0.000001; 0.000003162; 0.00001; 0.00003162; 0.0001; 0.0003162; 0.001; 0.003162; 0.01; 0.03162; 0.1]
      [0.015; 0.015; 0.0152; 0.0195; 0.0295; 0.0473; 0.0857; 0.1307; 0.1859; 0.2411; 0.2411]));
  mkModel "GeoMatrix (1990), >150 ft"
    (Some (mkTable
      [0.000001; 0.000003162; 0.00001; 0.00003162; 0.0001; 0.0003162; 0.001; 0.003162; 0.01; 0.03162; 0.1]
      [1; 1; 1; 0.999; 0.939; 0.826; 0.62; 0.381; 0.162; 0.052; 0.052]))
    (None);
  mkModel "GeoMatrix (1990), 150-300 ft"
    (None)
    (Some (mkTable
      [0.000001; 0.000003162; 0.00001; 0.00003162; 0.0001; 0.0003162; 0.001; 0.003162; 0.01; 0.03162; 0.1]
      [0.015; 0.015; 0.0152; 0.0168; 0.0225; 0.0322; 0.0619; 0.1027; 0.1566; 0.2411; 0.2411]));
  mkModel "GeoMatrix (1990), >300 ft"
    (None)
    (Some (mkTable
      [0.000001; 0.000003162; 0.00001; 0.00003162; 0.0001; 0.0003162; 0.001; 0.003162; 0.01; 0.03162; 0.1]
      [0.0096; 0.0098; 0.0101; 0.0101; 0.0107; 0.0156; 0.0415; 0.0784; 0.1208; 0.1784; 0.1784]));
  mkModel "Idriss (1990), Clay"
    (Some (mkTable
      [0.000001; 0.000003162; 0.00001; 0.00003162; 0.0001; 0.0003162; 0.001; 0.003162; 0.01; 0.03162; 0.1]
      [1; 1; 1; 0.979; 0.941; 0.839; 0.656; 0.429; 0.238; 0.238; 0.238]))
    (Some (mkTable
      [0.000001; 0.000003162; 0.00001; 0.00003162; 0.0001; 0.0003162; 0.001; 0.003162; 0.01; 0.03162; 0.1]
      [0.0024; 0.0044; 0.008; 0.0146; 0.028; 0.0531; 0.098; 0.1574; 0.21; 0.21; 0.21]));
  mkModel "Idriss (1990), Sand"
    (Some (mkTable
      [0.000001; 0.000003162; 0.00001; 0.00003162; 0.0001; 0.0003162; 0.001; 0.003162; 0.01; 0.03162; 0.1]
      [1; 1; 0.99; 0.955; 0.85; 0.628; 0.37; 0.176; 0.08; 0.08; 0.08]))
    (Some (mkTable
      [0.000001; 0.000003162; 0.00001; 0.00003162; 0.0001; 0.0003162; 0.001; 0.003162; 0.01; 0.03162; 0.1]
      [0.0024; 0.0044; 0.008; 0.0146; 0.028; 0.0531; 0.098; 0.1574; 0.21; 0.21; 0.21]));
  mkModel "Imperial Valley Soils, 0-300 ft"
    (Some (mkTable
      [0.000001; 0.000003162; 0.00001; 0.00003162; 0.0001; 0.0003162; 0.001; 0.003162; 0.01]
      [1; 1; 1; 1; 0.973; 0.904; 0.699; 0.459; 0.247]))
    (Some (mkTable
      [0.000001; 0.000003162; 0.00001; 0.00003162; 0.0001; 0.0003162; 0.001; 0.003162; 0.01]
      [0.0095; 0.0095; 0.0095; 0.0095; 0.0122; 0.0203; 0.0406; 0.0798; 0.1204]));
  mkModel "Imperial Valley Soils, >300 ft"
    (Some (mkTable
      [0.000001; 0.000003162; 0.00001; 0.00003162; 0.0001; 0.0003162; 0.001; 0.003162; 0.01]
      [1; 1; 1; 1; 0.986; 0.952; 0.767; 0.541; 0.329]))
    (Some (mkTable
      [0.000001; 0.000003162; 0.00001; 0.00003162; 0.0001; 0.0003162; 0.001; 0.003162; 0.01]
      [0.0054; 0.0054; 0.0054; 0.0054; 0.0054; 0.0095; 0.0271; 0.0595; 0.0987]));
  mkModel "Iwasaki, 0.25 atm"
    (Some (mkTable
      [0.000001; 0.00000316; 0.00001; 0.0000316; 0.0001; 0.000316; 0.001; 0.00316; 0.01]
      [1; 0.98; 0.93; 0.85; 0.72; 0.49; 0.23; 0.08; 0.03]))
    (None);
  mkModel "Iwasaki, 1.0 atm"
    (Some (mkTable
      [0.000001; 0.00000316; 0.00001; 0.0000316; 0.0001; 0.000316; 0.001; 0.00316; 0.01]
      [1; 1; 0.97; 0.92; 0.83; 0.65; 0.39; 0.17; 0.07]))
    (None);
  mkModel "Peninsular Range, Cohesionless 0-50 ft"
    (Some (mkTable
      [0.000001; 0.000003162; 0.00001; 0.00003162; 0.0001; 0.0003162; 0.001; 0.003162; 0.01]
      [1; 1; 1; 0.963; 0.868; 0.677; 0.427; 0.221; 0.088]))
    (Some (mkTable
      [0.000001; 0.000003162; 0.00001; 0.00003162; 0.0001; 0.0003162; 0.001; 0.003162; 0.01]
      [0.0106; 0.0106; 0.0121; 0.0166; 0.0288; 0.056; 0.1059; 0.1665; 0.23]));
  mkModel "Peninsular Range, Cohesionless 50-500 ft"
    (Some (mkTable
      [0.000001; 0.000003162; 0.00001; 0.00003162; 0.0001; 0.0003162; 0.001; 0.003162; 0.01]
      [1; 1; 1; 0.985; 0.941; 0.846; 0.647; 0.404; 0.191]))
    (Some (mkTable
      [0.000001; 0.000003162; 0.00001; 0.00003162; 0.0001; 0.0003162; 0.001; 0.003162; 0.01]
      [0.006; 0.006; 0.006; 0.0091; 0.0121; 0.0258; 0.0545; 0.1059; 0.1665]));
  mkModel "Seed & Idriss, Sand Mean"
    (Some (mkTable
      [0.000001; 0.00000316; 0.00001; 0.0000316; 0.0001; 0.000316; 0.001; 0.00316; 0.01]
      [1; 0.99; 0.96; 0.88; 0.74; 0.52; 0.29; 0.15; 0.06]))
    (Some (mkTable
      [0.000001; 0.00000316; 0.00001; 0.0000316; 0.0001; 0.000316; 0.001; 0.00316; 0.01]
      [0.0057; 0.0086; 0.017; 0.031; 0.055; 0.095; 0.155; 0.211; 0.246]));
  mkModel "Seed & Idriss, Sand Upper"
    (Some (mkTable
      [0.000001; 0.00000316; 0.00001; 0.0000316; 0.0001; 0.000316; 0.001; 0.00316; 0.01]
      [1; 1; 0.99; 0.94; 0.84; 0.65; 0.36; 0.19; 0.08]))
    (None);
  mkModel "Seed & Idriss, Sand Lower"
    (None)
    (Some (mkTable
      [0.000001; 0.00000316; 0.00001; 0.0000316; 0.0001; 0.000316; 0.001; 0.00316; 0.01]
      [0.005; 0.006; 0.008; 0.014; 0.028; 0.053; 0.1; 0.158; 0.215]))
]%Q%string).

(** site.py:48-62: the dictionary built from a list of models; of models with one name the
    last stays.  The warning about repeated names is not modelled. *)
Definition get_model (models : list model) (name : string) : res model :=
  match find (fun m => String.eqb (m_name m) name) (rev models) with
  | Some m => Ok m
  | None => Err KeyError
  end.
(** site.py:65-69: the keys in order of first insertion. *)
Definition known_published_curves (models : list model) : list string :=
  fold_left (fun ks m => if existsb (String.eqb (m_name m)) ks then ks else ks ++ [m_name m]) models [].

(** site.py:115-145, [NonlinearCurve.from_published(name, param)]; [id] stands for the new
    object. *)
Definition curve_from_published (models : list model) (id : nat) (name param : string) : res curve :=
  if String.eqb param "mod_reduc" || String.eqb param "damping" then
    bind (get_model models name) (fun m =>
    if String.eqb param "mod_reduc" then
      match m_mod_reduc m with
      | Some t => Ok (modulus_curve id (map Q2R (t_strains t)) (map Q2R (t_values t)))
      | None => Err KeyError
      end
    else
      match m_damping m with
      | Some t => Ok (damping_curve id (map Q2R (t_strains t)) (map Q2R (t_values t)))
      | None => Err KeyError
      end)
  else Err AssertionError.

(** site.py:308-327, [SoilType.from_published]; [ids] are the two new curve objects. *)
Definition soil_from_published (models : list model) (ids : nat * nat) (name : string) (unit_wt : R)
    (model_name : string) (model_damping : option string) : res soil :=
  let md := match model_damping with Some n => n | None => model_name end in
  bind (curve_from_published models (fst ids) model_name "mod_reduc") (fun g =>
  bind (curve_from_published models (snd ids) md "damping") (fun d =>
  Ok (mkSoil 0 name unit_wt (Some g) (DCurve d)))).
