-Q theories Verif
theories/Py.v
theories/PyFacts.v
theories/ListFacts.v
theories/Network.v
theories/NetworkSpec.v
theories/NetworkProofs.v
theories/NetworkProofs2.v
theories/NetworkProofs3.v
theories/PropNetwork.v
theories/Topology.v
theories/TopologySpec.v
theories/TopologyProofs.v
theories/TopologyProofs2.v
theories/TopologyProofs3.v
theories/TopologyProofs4.v
theories/TopologyProofs5.v
theories/PropTopology.v
theories/Msgpack.v
theories/MsgpackSpec.v
theories/MsgpackProofs.v
theories/NetCopy.v
theories/PropMsgpack.v
theories/Evolve.v
theories/EvolveSpec.v
theories/EvolveProofs.v
theories/EvolveProofs2.v
theories/EvolveProofs3.v
theories/Heap.v
theories/HeapProofs.v
theories/EvolveProofs4.v
theories/PropEvolve.v
theories/Rules.v
theories/RulesSpec.v
theories/RulesProofs.v
theories/EvolveStatic.v
theories/LifeProofs.v
theories/PropRules.v
theories/Async.v
theories/AsyncProofs.v
theories/ReversibleProofs.v
theories/PropAsync.v
theories/RuleTables.v
theories/TableSpec.v
theories/TableProofs.v
theories/PropTables.v
theories/Ctrbl.v
theories/Langton.v
theories/CtrblSpec.v
theories/CtrblProofs.v
theories/LangtonProofs.v
theories/PropCtrbl.v
theories/Utils.v
theories/UtilsProofs.v
theories/PropUtils.v
theories/TuringSpec.v
theories/Turing.v
theories/TuringProofs.v
theories/TuringProofs2.v
theories/PropTuring.v
theories/SubstSpec.v
theories/Subst.v
theories/SubstProofs.v
theories/SubstProofs2.v
theories/PropSubst.v
theories/WolframSpec.v
theories/Wolfram.v
theories/WolframProofs.v
theories/WolframProofs2.v
theories/WolframProofs3.v
theories/PropWolfram.v
theories/HopfieldSpec.v
theories/Hopfield.v
theories/HopfieldProofs.v
theories/HopfieldProofs2.v
theories/HopfieldProofs3.v
theories/PropHopfield.v
theories/SandpileSpec.v
theories/Sandpile.v
theories/SandpileProofs.v
theories/SandpileProofs2.v
theories/PropSandpile.v
theories/LatticeSpec.v
theories/Lattice.v
theories/LatticeProofs.v
theories/PropLattice.v
theories/EvolveTopo.v
theories/FungalSpec.v
theories/Fungal.v
theories/FungalProofs.v
theories/FungalProofs2.v
theories/PropFungal.v
theories/Analysis.v
theories/AnalysisProofs.v
theories/AnalysisProofs2.v
theories/PropAnalysis.v
theories/Turtle.v
theories/PropTurtle.v
theories/TspSpec.v
theories/Tsp.v
theories/TspProofs.v
theories/TspProofs2.v
theories/PropTsp.v
theories/WattsStrogatz.v
theories/WattsStrogatzSpec.v
theories/WattsStrogatzProofs.v
theories/PropSmallWorld.v
theories/Plot.v
theories/PlotProofs.v
theories/PropPlot.v
theories/PropRender.v
theories/Hexplot.v
theories/PropHex.v
theories/CaSpec.v
theories/CaRun.v
theories/CaNets.v
theories/PropCa.v
theories/EcaSpec.v
theories/EcaProofs.v
theories/PropEca.v
theories/Fredkin.v
theories/FredkinProofs.v
theories/PropFredkin.v
theories/Machines.v
theories/MachinesProofs.v
theories/PropMachines.v
theories/DemoNets.v
theories/TopoRun.v
theories/NetMult.v
theories/EvolvingProofs.v
theories/PropEvolving.v
theories/PropRandomNet.v
theories/PropRestricted.v
theories/DynRun.v
theories/PropFunctional.v
theories/PropContext.v
theories/Continuous.v
theories/ContinuousProofs.v
theories/PropContinuous.v
theories/LifeSpec.v
theories/LifePlane.v
theories/PropLife.v
theories/PropWire.v
theories/Maps.v
theories/FieldRun.v
theories/PropLogistic.v
theories/PropLorenz.v
theories/PropReaction.v
theories/PropFraction.v
theories/Mlp.v
theories/PropMlp.v
theories/TmDemos.v
theories/TmZipper.v
theories/TmLangProofs.v
theories/PropTmLang.v
theories/TmRule110.v
theories/PropTm110.v
theories/SeqSpec.v
theories/SeqRun.v
theories/PropSeq.v
theories/DrivenRun.v
theories/PsoSpec.v
theories/Pso.v
theories/PsoProofs.v
theories/PropPso.v
theories/RevSpec.v
theories/RevRun.v
theories/RevDemos.v
theories/PropReversible.v
theories/PertSpec.v
theories/PertRun.v
theories/Perturb.v
theories/PropPerturb.v
theories/PropNoise.v
theories/FlockRun.v
theories/FlockSpec.v
theories/Flock.v
theories/FlockProofs.v
theories/PropFlock.v
theories/Boids.v
theories/BoidSpec.v
theories/PropBoids.v
theories/Rbm.v
theories/RbmSpec.v
theories/RbmMath.v
theories/BipNet.v
theories/RbmProofs.v
theories/PropRbm.v
theories/DensitySpec.v
theories/DensityProofs.v
theories/Density.v
theories/PropDensity.v
theories/VoteSpec.v
theories/VoteProofs.v
theories/Vote.v
theories/VoteRun.v
theories/PropVote.v
theories/LsysSpec.v
theories/Lsys.v
theories/LsysRun.v
theories/LsysDraw.v
theories/PropLsys.v
theories/LsysLattice.v
theories/PropKoch.v
theories/PropMoore.v
theories/SubstDemoSpec.v
theories/SubstDemos.v
theories/SubstDemoRun.v
theories/PropSubstDemos.v
theories/PropTmGlider.v
theories/Rule30Spec.v
theories/Elementary.v
theories/PropRule30.v
theories/PyFloat.v
theories/CollatzDemo.v
theories/PropCollatz.v
theories/AbelSpec.v
theories/SandpileDemo.v
theories/SandpileAbel.v
theories/PropSandpileDemo.v
theories/FlakeSpec.v
theories/HexDemo.v
theories/FlakeProofs.v
theories/FlakeTorus.v
theories/PropFlake.v
theories/DiodeSpec.v
theories/DiodeProofs.v
theories/WireDemos.v
theories/XorSpec.v
theories/XorProofs.v
theories/PropDiode.v
theories/TotalSpec.v
theories/TotalDemo.v
theories/PropTotal.v
theories/WolframRun.v
theories/WmSpec.v
theories/WolframDemo.v
theories/PropWm.v
theories/LoopSpec.v
theories/LoopFilm.v
theories/LoopRun.v
theories/LoopProofs.v
theories/LoopDemo.v
theories/PropLoop.v
theories/HopMemSpec.v
theories/HopRun.v
theories/HopRecall.v
theories/HopDemo.v
theories/PropHopDemo.v
theories/LambdaSpec.v
theories/LambdaDemo.v
theories/PropLambda.v
theories/EntropyDemo.v
theories/PropEntropyDemo.v
theories/PropSpread.v
theories/FungalDemo.v
