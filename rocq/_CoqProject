-Q theories Verif
theories/Base/Prelude.v
theories/Base/Graph.v
theories/Spec/Routes.v
theories/Spec/Network.v
theories/Spec/LinProg.v
theories/Proofs/RouteLemmas.v
theories/Model/Args.v
theories/Model/Reach.v
theories/Model/Checks.v
theories/Model/Preprocess.v
theories/Model/ClarkeWright.v
theories/Model/Greedy.v
theories/Model/Initial.v
theories/Model/Pricing.v
theories/Model/GreedyPricing.v
theories/Model/LPPricing.v
theories/Model/Cspy.v
theories/Model/Master.v
theories/Model/Dive.v
theories/Model/Hyper.v
theories/Model/ColGen.v
theories/Model/Post.v
theories/Model/Schedule.v
theories/Model/Solve.v
theories/Proofs/ReachLemmas.v
theories/Spec/Inputs.v
theories/Proofs/ChecksProofs.v
theories/Spec/Feasible.v
theories/Proofs/FeasProofs.v
theories/Proofs/Deciders.v
theories/Spec/Prep.v
theories/Proofs/PreLemmas.v
theories/Proofs/PruneProofs.v
theories/Proofs/KnapProofs.v
theories/Proofs/LockProofs.v
theories/Proofs/PresolveProofs.v
theories/Spec/Heuristics.v
theories/Spec/Savings.v
theories/Proofs/PresolveEnd.v
theories/Proofs/PresolveExact.v
theories/Proofs/ArgsExact.v
theories/Proofs/CWProofs.v
theories/Proofs/GreedyProofs.v
theories/Proofs/InitialProofs.v
theories/Proofs/HeurCor.v
theories/Proofs/SavingsProofs.v
theories/Proofs/SavingsMax.v
theories/Proofs/InitExact.v
theories/Spec/Pricing.v
theories/Proofs/PricingProofs.v
theories/Spec/MIP.v
theories/Spec/Columns.v
theories/Spec/Timing.v
theories/Spec/Labelling.v
theories/Spec/Pool.v
theories/Spec/Master.v
theories/Proofs/MasterProofs.v
theories/Proofs/SelectProofs.v
theories/Spec/Duality.v
theories/Spec/Run.v
theories/Spec/History.v
theories/Proofs/FlowProofs.v
theories/Proofs/LPProofs.v
theories/Proofs/LPColumn.v
theories/Proofs/LPComplete.v
theories/Proofs/LPTimes.v
theories/Proofs/LPCycles.v
theories/Proofs/DualityProofs.v
theories/Proofs/GreedyPricingProofs.v
theories/Proofs/CspyProofs.v
theories/Proofs/PricingCor.v
theories/Proofs/CspyCall.v
theories/Proofs/PoolProofs.v
theories/Proofs/MasterCor.v
theories/Proofs/MasterEnd.v
theories/Proofs/PoolQuality.v
theories/Proofs/ColGenProofs.v
theories/Proofs/RunProofs.v
theories/Proofs/BoundProofs.v
theories/Proofs/HyperProofs.v
theories/Proofs/DiveProofs.v
theories/Proofs/ColGenCor.v
theories/Proofs/OwnVariable.v
theories/Proofs/ColGenEnd.v
theories/Proofs/HyperTotal.v
theories/Proofs/DiveCor.v
theories/Proofs/Certificate.v
theories/Proofs/PricingWitness.v
theories/Proofs/MasterWitness.v
theories/Proofs/Oracles.v
theories/Proofs/ColGenWitness.v
theories/Proofs/DiveWitness.v
theories/Spec/Results.v
theories/Spec/Plans.v
theories/Spec/Variants.v
theories/Proofs/PostProofs.v
theories/Proofs/TimesProofs.v
theories/Proofs/PostCor.v
theories/Proofs/ScheduleProofs.v
theories/Proofs/PostEnd.v
theories/Proofs/Readable.v
theories/Proofs/PostWitness.v
theories/Proofs/SolveProofs.v
theories/Proofs/SolveHeur.v
theories/Proofs/SolveTotal.v
theories/Proofs/SolveUser.v
theories/Proofs/ExactPool.v
theories/Proofs/SolveExact.v
theories/Proofs/SolveSamples.v
theories/Proofs/SolveWitness.v
theories/Proofs/AgainProofs.v
theories/Proofs/AgainEnd.v
theories/Proofs/AgainWitness.v
theories/Proofs/LabelBound.v
theories/Proofs/LabelWitness.v
theories/Proofs/Stagnation.v
theories/Proofs/HistoryProofs.v
theories/Proofs/TagProofs.v
theories/Proofs/BruteLabel.v
theories/Proofs/PlanGen.v
theories/Proofs/AnyProofs.v
theories/Proofs/AnyPool.v
theories/Proofs/Warm.v
theories/Proofs/AnyBound.v
theories/Proofs/AnyUser.v
theories/Proofs/AnyCases.v
theories/Proofs/AnyGiven.v
theories/Proofs/AnyWitness.v
theories/Proofs/WarmWitness.v
theories/Spec/Plain.v
theories/Spec/Locked.v
theories/Spec/Periodic.v
theories/Spec/Session.v
theories/Spec/Diving.v
theories/Proofs/PlainStart.v
theories/Proofs/PlainUser.v
theories/Proofs/PlainWitness.v
theories/Proofs/LockedProofs.v
theories/Proofs/LockedSolve.v
theories/Proofs/LockedUser.v
theories/Proofs/LockedPlain.v
theories/Proofs/LockedWitness.v
theories/Proofs/PerBest.v
theories/Proofs/PerGen.v
theories/Proofs/PerUser.v
theories/Proofs/PerWitness.v
theories/Proofs/Isolation.v
theories/Proofs/AgainFleet.v
theories/Proofs/SessionWitness.v
theories/Proofs/AnyLabelled.v
theories/Props/Samples.v
theories/Props/P01_Checks.v
theories/Props/P02_Preprocess.v
theories/Props/P03_Heuristics.v
theories/Props/P04_Pricing.v
theories/Props/P05_Master.v
theories/Props/P06_ColGen.v
theories/Props/P07_Results.v
theories/Props/P08_Solve.v
theories/Props/P09_Labelling.v
theories/Props/P10_Variants.v
theories/Proofs/Ends.v
theories/Proofs/LabelEnds.v
theories/Proofs/Redundant.v
theories/Proofs/EndsWitness.v
theories/Proofs/MipEnds.v
theories/Proofs/MipSolve.v
theories/Proofs/MipCase.v
theories/Proofs/MipRuns.v
theories/Props/P11_Ends.v
theories/Props/P12_History.v
theories/Props/P13_Initial.v
theories/Props/P14_Plain.v
theories/Props/P15_Locked.v
theories/Props/P16_Periodic.v
theories/Props/P17_Session.v
theories/Proofs/DiveEnd.v
theories/Proofs/PlanDive.v
theories/Proofs/DiveUser.v
theories/Proofs/DiveCases.v
theories/Props/P18_Diving.v
theories/Spec/Returning.v
theories/Proofs/Returns.v
theories/Proofs/ReturnsUser.v
theories/Proofs/ReturnsWitness.v
theories/Proofs/ReturnsGiven.v
theories/Proofs/ReturnsGivenWitness.v
theories/Props/P19_Returns.v
theories/Proofs/Sharp.v
theories/Proofs/LockedPeriodic.v
theories/Proofs/LockedPerWitness.v
theories/Props/P20_LockedPeriodic.v
theories/Proofs/LockedAll.v
theories/Proofs/LockedAllWitness.v
theories/Props/P21_Everyone.v
theories/Props/P22_OwnPlan.v
theories/Spec/Limits.v
theories/Proofs/Limits.v
theories/Proofs/LimitsWitness.v
theories/Props/P23_Limits.v
